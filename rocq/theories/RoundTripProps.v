(** C100: projecting the ideal harmonic trajectory (iofile/__init__.py generate_test_trajectory, C73) onto one of its own wave vectors and modes
    (projection.py, C28/C29) gives back the oscillation of that mode.  Only models of other files are used: SupercellModel, PhonopyLinkModel (get_q_vector),
    HarmonicModel, VelocityModel, ProjectionModel. *)
From Verif Require Import Base SupercellModel SupercellSpec SupercellProofs PhonopyLinkModel PhonopyLinkSpec PhonopyLinkProofs PhonopyLinkProps ProjectionModel ProjectionSpec ProjectionProofs ProjectionSymmetryProps.
From Verif Require FftModel FftProofs HarmonicModel HarmonicSpec HarmonicProofs HarmonicProps.
From Verif Require DisplacementsModel VelocityModel VelocitySpec VelocityProofs VelocityProps.
From Coq Require Import Lra Lia Permutation.
From Coquelicot Require Import Complex.
Open Scope R_scope.

(** ---------- specification ---------- *)
Definition integral (d : vec) : Prop := exists a b c : Z, d = V3 (IZR a) (IZR b) (IZR c).
(** the reduced wave vector d is periodic in an nx x ny x nz supercell *)
Definition commensurate (nx ny nz : nat) (d : vec) : Prop := exists a b c : Z, vx d * INR nx = IZR a /\ vy d * INR ny = IZR b /\ vz d * INR nz = IZR c.

(** a supercell of nx x ny x nz copies of the unit cell (also the primitive cell) with positive masses *)
Definition crystal (inv : mat -> mat) (cell : mat) (pos : list vec) (nx ny nz : nat) (types : list nat) (m : nat -> R) : Prop :=
  (nx > 0)%nat /\ (ny > 0)%nat /\ (nz > 0)%nat /\ is_inverse (inv cell) cell /\ get_attribute (length pos) (seq 0 (length pos)) [nx; ny; nz] = Some types /\ forall i, 0 < m i.
(** the wave vectors used for the trajectory: all the nx*ny*nz inequivalent ones that are periodic in the supercell *)
Definition wave_vectors (nx ny nz nq : nat) (Q : nat -> vec) : Prop :=
  nq = (nx * ny * nz)%nat /\ (forall i, (i < nq)%nat -> commensurate nx ny nz (Q i)) /\
  forall i j, (i < nq)%nat -> (j < nq)%nat -> integral (vsub (Q i) (Q j)) -> i = j.
(** site i of the supercell, and its coordinates in the ideal trajectory at step s *)
Definition site (cell : mat) (pos : list vec) (nx ny nz i : nat) : vec := nth i (get_positions cell pos [nx; ny; nz]) vzero.
Definition ideal (inv : mat -> mat) (cell : mat) (pos : list vec) (nx ny nz : nat) (types : list nat) (m : nat -> R) (nq nf : nat) (Q : nat -> vec) (fr : nat -> nat -> R)
    (ev : nat -> nat -> nat -> nat -> C) (T mf p0 dt : R) (s i c : nat) : R :=
  HarmonicModel.coordinate 3 (length pos * (nx * ny * nz)) (length pos) nq nf (fun a => PhonopyLinkProps.comp (site cell pos nx ny nz a)) m (fun a => nth a types 0%nat)
    (fun q => PhonopyLinkProps.comp (get_q_vector inv cell (Q q))) fr ev T mf p0 (INR s * dt) i c.
(** the trajectory's projections onto the wave vector q and then onto the modes e *)
Definition at_wave_vector (inv : mat -> mat) (cell : mat) (pos : list vec) (nx ny nz : nat) (types : list nat) (m : nat -> R) (v : nat -> nat -> nat -> C) (q : vec) : option (nat -> nat -> nat -> C) :=
  project_onto_wave_vector (length pos * (nx * ny * nz)) (length pos) 3 (fun a => nth a types 0%nat) (fun a => PhonopyLinkProps.comp (site cell pos nx ny nz a))
    (PhonopyLinkProps.comp (get_q_vector inv cell q)) v m (-1).
(** e^{-i G.r} for the atom ty of the cell *)
Definition cell_phase (inv : mat -> mat) (cell : mat) (pos : list vec) (G : vec) (ty : nat) : C := expmi (vdot (get_q_vector inv cell G) (nth ty pos vzero)).
(** boltzmann constant as written in the code, u A^2 / (ps^2 K) *)
Definition kB : R := 831446 / 1000000.

(** ---------- lattice sums ---------- *)
Lemma expmi_period x (k : Z) : expmi (x + 2 * PI * IZR k) = expmi x.
Proof. rewrite !expmi_cis. replace (- (x + 2 * PI * IZR k)) with (- x + 2 * PI * IZR (- k)) by (rewrite opp_IZR; ring). apply FftProofs.cis_period. Qed.
Lemma csum_const n x : csum n (fun _ => x) = Cmult (RtoC (INR n)) x.
Proof. induction n as [|n IH]; [cbn; ring|]. cbn [csum]. rewrite IH, S_INR, RtoC_plus. ring. Qed.
Lemma axis_lattice n q (a : Z) : (0 < n)%nat -> q * INR n = IZR a ->
  ((exists m, q = IZR m) -> csum n (fun x => expmi (2 * PI * (q * INR x))) = RtoC (INR n)) /\
  (~ (exists m, q = IZR m) -> csum n (fun x => expmi (2 * PI * (q * INR x))) = RtoC 0).
Proof.
  intros Hn E. assert (0 < INR n) by (apply lt_0_INR; lia). split.
  - intros [m ->]. rewrite (csum_ext n _ (fun _ => RtoC 1)); [rewrite csum_const; ring|]. intros x _. replace (2 * PI * (IZR m * INR x)) with (0 + 2 * PI * IZR (m * Z.of_nat x)) by (rewrite mult_IZR, <- INR_IZR_INZ; ring). rewrite expmi_period. apply expmi_0.
  - intros N. assert (Hz : (Z.of_nat n <> 0)%Z) by lia. set (r := (a mod Z.of_nat n)%Z). assert (Dm := Z.div_mod a (Z.of_nat n) Hz). fold r in Dm. assert (B := Z.mod_pos_bound a (Z.of_nat n) ltac:(lia)). fold r in B.
    assert (R0 : (r <> 0)%Z). { intros Z0. apply N. exists (a / Z.of_nat n)%Z. apply Rmult_eq_reg_r with (INR n); [|lra]. rewrite E. rewrite INR_IZR_INZ, <- mult_IZR. f_equal. lia. }
    rewrite csum_csumn, <- (FftProofs.root_sum n (- r)) by lia. apply FftProofs.csumn_ext. intros x _. rewrite expmi_cis.
    replace (2 * PI * INR x * IZR (- r) / INR n) with (- (2 * PI * (q * INR x)) + 2 * PI * IZR (a / Z.of_nat n * Z.of_nat x)).
    + symmetry. apply FftProofs.cis_period.
    + assert (Er : IZR r = IZR a - INR n * IZR (a / Z.of_nat n)) by (rewrite (INR_IZR_INZ n), <- mult_IZR, <- minus_IZR; f_equal; lia). rewrite opp_IZR, Er, mult_IZR, <- (INR_IZR_INZ x), <- E. field. lra.
Qed.
Section Lattice.
Context (inv : mat -> mat) (cell : mat) (pos : list vec) (nx ny nz : nat) (types : list nat).
Context (Hx : (nx > 0)%nat) (Hy : (ny > 0)%nat) (Hz : (nz > 0)%nat) (Hi : is_inverse (inv cell) cell)
  (Ht : get_attribute (length pos) (seq 0 (length pos)) [nx; ny; nz] = Some types).
Let natoms := (length pos * (nx * ny * nz))%nat.
Let P (i : nat) : vec := nth i (get_positions cell pos [nx; ny; nz]) vzero.
Let ty_of (i : nat) : nat := nth i types 0%nat.
Let gq := get_q_vector inv cell.
Lemma sum_by_site (F : nat -> C) : csum natoms F = csum (length pos) (fun k => csum nz (fun z => csum ny (fun y => csum nx (fun x => F ((((k * nz + z) * ny + y) * nx + x)%nat))))).
Proof.
  unfold natoms. replace (length pos * (nx * ny * nz))%nat with (length pos * nz * ny * nx)%nat by ring. rewrite <- csum_flat, <- csum_flat, <- csum_flat. reflexivity.
Qed.
Lemma gq_site d k w : vdot (gq d) (vadd (nth k pos vzero) (vmul w cell)) = vdot (gq d) (nth k pos vzero) + 2 * PI * vdot d w.
Proof. rewrite <- (q_dot inv cell d w Hi). unfold gq, vdot, vadd. cbn [vx vy vz]. ring. Qed.
Lemma lattice_product d ty : (ty < length pos)%nat ->
  csum natoms (fun i => if (ty_of i =? ty)%nat then expmi (vdot (gq d) (P i)) else RtoC 0) =
  Cmult (expmi (vdot (gq d) (nth ty pos vzero))) (Cmult (csum nz (fun z => expmi (2 * PI * (vz d * INR z)))) (Cmult (csum ny (fun y => expmi (2 * PI * (vy d * INR y)))) (csum nx (fun x => expmi (2 * PI * (vx d * INR x)))))).
Proof.
  intros Hty. rewrite sum_by_site. rewrite (csum_ext (length pos) _ (fun k => if (ty =? k)%nat then csum nz (fun z => csum ny (fun y => csum nx (fun x => expmi (vdot (gq d) (nth ty pos vzero) + 2 * PI * vdot d (V3 (INR x) (INR y) (INR z)))))) else RtoC 0)).
  - rewrite (csum_delta (length pos) ty (fun _ => csum nz (fun z => csum ny (fun y => csum nx (fun x => expmi (vdot (gq d) (nth ty pos vzero) + 2 * PI * vdot d (V3 (INR x) (INR y) (INR z))))))) Hty).
    rewrite <- csum_scal_r, <- csum_scal. apply csum_ext. intros z _. rewrite <- csum_scal_r, <- !csum_scal. apply csum_ext. intros y _. rewrite <- !csum_scal. apply csum_ext. intros x _.
    replace (vdot (gq d) (nth ty pos vzero) + 2 * PI * vdot d (V3 (INR x) (INR y) (INR z))) with (vdot (gq d) (nth ty pos vzero) + (2 * PI * (vz d * INR z) + (2 * PI * (vy d * INR y) + 2 * PI * (vx d * INR x)))) by (unfold vdot; cbn [vx vy vz]; ring).
    rewrite !expmi_add. reflexivity.
  - intros k Hk. assert (S : forall x y z, (x < nx)%nat -> (y < ny)%nat -> (z < nz)%nat -> let i := ((((k * nz + z) * ny + y) * nx + x)%nat) in ty_of i = k /\ P i = vadd (nth k pos vzero) (vmul (V3 (INR x) (INR y) (INR z)) cell)).
    { intros x y z Bx By Bz i. assert (Hin : (i < natoms)%nat). { unfold natoms, i. assert (((k * nz + z) * ny + y) * nx + x < ((k * nz + z) * ny + y + 1) * nx)%nat by nia. assert (((k * nz + z) * ny + y + 1) <= ((k * nz + z) + 1) * ny)%nat by nia. assert ((k * nz + z + 1) <= (k + 1) * nz)%nat by nia.
        assert (((k * nz + z) * ny + y + 1) * nx <= ((k * nz + z + 1) * ny) * nx)%nat by (apply Nat.mul_le_mono_r; lia). assert ((k * nz + z + 1) * ny * nx <= (k + 1) * nz * ny * nx)%nat by (apply Nat.mul_le_mono_r, Nat.mul_le_mono_r; lia).
        assert ((k + 1) * nz * ny * nx <= length pos * nz * ny * nx)%nat by (repeat apply Nat.mul_le_mono_r; lia). nia. }
      destruct (site_at cell pos nx ny nz types Hx Hy Hz Ht i Hin) as (x' & y' & z' & k' & E & _ & _ & _ & _ & T & S). unfold i in E. rewrite dynaphopy_order_encode in E by assumption. injection E as <- <- <- <-. split; assumption. }
    destruct (Nat.eqb_spec ty k) as [<-|N].
    + apply csum_ext. intros z Bz. apply csum_ext. intros y By. apply csum_ext. intros x Bx. destruct (S x y z Bx By Bz) as [-> ->]. rewrite Nat.eqb_refl, gq_site. reflexivity.
    + rewrite (csum_ext nz _ (fun _ => RtoC 0)); [apply csum_0|]. intros z Bz. rewrite (csum_ext ny _ (fun _ => RtoC 0)); [apply csum_0|]. intros y By. rewrite (csum_ext nx _ (fun _ => RtoC 0)); [apply csum_0|]. intros x Bx.
      destruct (S x y z Bx By Bz) as [-> _]. destruct (Nat.eqb_spec k ty) as [->|_]; [contradiction|reflexivity].
Qed.
Lemma lattice_in d ty : (ty < length pos)%nat -> integral d ->
  csum natoms (fun i => if (ty_of i =? ty)%nat then expmi (vdot (gq d) (P i)) else RtoC 0) = Cmult (RtoC (INR (nx * ny * nz))) (expmi (vdot (gq d) (nth ty pos vzero))).
Proof.
  intros Hty (a & b & c & ->). rewrite lattice_product by exact Hty. cbn [vx vy vz].
  destruct (axis_lattice nx (IZR a) (a * Z.of_nat nx)%Z Hx ltac:(rewrite mult_IZR, <- INR_IZR_INZ; reflexivity)) as [-> _]; [|exists a; reflexivity].
  destruct (axis_lattice ny (IZR b) (b * Z.of_nat ny)%Z Hy ltac:(rewrite mult_IZR, <- INR_IZR_INZ; reflexivity)) as [-> _]; [|exists b; reflexivity].
  destruct (axis_lattice nz (IZR c) (c * Z.of_nat nz)%Z Hz ltac:(rewrite mult_IZR, <- INR_IZR_INZ; reflexivity)) as [-> _]; [|exists c; reflexivity].
  rewrite !mult_INR, !RtoC_mult. ring.
Qed.
Lemma lattice_out d ty : (ty < length pos)%nat -> commensurate nx ny nz d -> ~ integral d ->
  csum natoms (fun i => if (ty_of i =? ty)%nat then expmi (vdot (gq d) (P i)) else RtoC 0) = RtoC 0.
Proof.
  intros Hty (a & b & c & Ea & Eb & Ec) N. rewrite lattice_product by exact Hty.
  destruct (axis_lattice nx (vx d) a Hx Ea) as [_ X]. destruct (axis_lattice ny (vy d) b Hy Eb) as [_ Y]. destruct (axis_lattice nz (vz d) c Hz Ec) as [_ Z].
  destruct (Classical_Prop.classic (exists m, vx d = IZR m)) as [Mx|Mx]; [|rewrite (X Mx); ring]. destruct (Classical_Prop.classic (exists m, vy d = IZR m)) as [My|My]; [|rewrite (Y My); ring].
  destruct (Classical_Prop.classic (exists m, vz d = IZR m)) as [Mz|Mz]; [|rewrite (Z Mz); ring].
  exfalso. apply N. destruct Mx as [m1 E1], My as [m2 E2], Mz as [m3 E3]. exists m1, m2, m3. destruct d. cbn in *. congruence.
Qed.
End Lattice.

(** ---------- from the trajectory to the wave vector ---------- *)
Definition mih : C := (0, - (1 / 2)).
Lemma im_part z : Cmult mih (Cminus z (Cconj z)) = RtoC (snd z).
Proof. unfold mih. apply injective_projections; cbn; lra. Qed.
Lemma Sum_csum n f : RtoC (HarmonicSpec.Sum n f) = csum n (fun i => RtoC (f i)).
Proof. induction n as [|n IH]; cbn [HarmonicSpec.Sum csum]; [reflexivity|]. rewrite <- IH. apply RtoC_plus. Qed.
Lemma csum_opp n g : csum n (fun k => Copp (g k)) = Copp (csum n g).
Proof. induction n as [|n IH]; cbn [csum]; [ring|]. rewrite IH. ring. Qed.
Lemma gq_add inv cell a b : get_q_vector inv cell (vadd a b) = vadd (get_q_vector inv cell a) (get_q_vector inv cell b).
Proof. unfold get_q_vector, vmul. apply vec_eq; unfold vadd, vscale; cbn [vx vy vz]; ring. Qed.
Lemma gq_sub inv cell a b : get_q_vector inv cell (vsub a b) = vsub (get_q_vector inv cell a) (get_q_vector inv cell b).
Proof. unfold get_q_vector, vmul. apply vec_eq; unfold vadd, vsub, vscale; cbn [vx vy vz]; ring. Qed.
Lemma vdot_vadd a b c : vdot (vadd a b) c = vdot a c + vdot b c. Proof. unfold vdot, vadd. cbn [vx vy vz]. ring. Qed.
Lemma vdot_vsub a b c : vdot (vsub a b) c = vdot a c - vdot b c. Proof. unfold vdot, vsub. cbn [vx vy vz]. ring. Qed.
Lemma Sum3_comp a b : HarmonicSpec.Sum 3 (fun c => PhonopyLinkProps.comp a c * PhonopyLinkProps.comp b c) = vdot a b.
Proof. unfold vdot; cbn. ring. Qed.
Lemma wave_difference e th d : HarmonicSpec.wave e (th - d) - HarmonicSpec.wave e (th + d) = 2 * sin d * (fst e * sin th + snd e * cos th).
Proof. unfold HarmonicSpec.wave. rewrite cos_plus, cos_minus, sin_plus, sin_minus. ring. Qed.

Section RoundTrip.
Context (inv : mat -> mat) (cell : mat) (pos : list vec) (nx ny nz : nat) (types : list nat).
Context (Hx : (nx > 0)%nat) (Hy : (ny > 0)%nat) (Hz : (nz > 0)%nat) (Hi : is_inverse (inv cell) cell)
  (Ht : get_attribute (length pos) (seq 0 (length pos)) [nx; ny; nz] = Some types).
Let natoms := (length pos * (nx * ny * nz))%nat.
Let P (i : nat) : vec := nth i (get_positions cell pos [nx; ny; nz]) vzero.
Let ty_of (i : nat) : nat := nth i types 0%nat.
Let gq := get_q_vector inv cell.
Context (m : nat -> R) (Hm : forall i, 0 < m i) (nq nf : nat) (Q : nat -> vec) (fr : nat -> nat -> R) (ev : nat -> nat -> nat -> nat -> C) (T mf p0 dt h : R) (Hh : h <> 0).
Let x (s i c : nat) : R := HarmonicModel.coordinate 3 natoms (length pos) nq nf (fun a => PhonopyLinkProps.comp (P a)) m ty_of (fun i => PhonopyLinkProps.comp (gq (Q i))) fr ev T mf p0 (INR s * dt) i c.
(** amplitude of the velocity of mode k of wave vector i *)
Definition gain (i k : nat) : R := exp p0 * (if Rlt_dec mf (Rabs (fr i k)) then HarmonicModel.amplitude 3 natoms (length pos) nq T (fr i k) else 0) * (sin (2 * PI * fr i k * dt) / h).
Definition signal (i k s : nat) : C := Cmult (RtoC (gain i k)) (expmi (2 * PI * fr i k * (INR s * dt))).
Lemma step_velocity t i c :
  Cmult (RtoC ((x (S (S t)) i c - x t i c) / (2 * h))) (RtoC (sqrt (m i))) =
  csum nf (fun k => csum nq (fun q => Cmult mih (Cminus (Cmult (Cmult (signal q k (S t)) (ev q k (ty_of i) c)) (Cconj (expmi (vdot (gq (Q q)) (P i)))))
                                                       (Cmult (Cconj (Cmult (signal q k (S t)) (ev q k (ty_of i) c))) (expmi (vdot (gq (Q q)) (P i))))))).
Proof.
  assert (Sm : 0 < sqrt (m i)) by (apply sqrt_lt_R0, Hm). unfold x. rewrite !HarmonicProofs.coordinate_value. rewrite <- RtoC_mult.
  match goal with |- RtoC ((?p + ?a - (?p + ?b)) / (2 * h) * sqrt (m i)) = _ => replace ((p + a - (p + b)) / (2 * h) * sqrt (m i)) with (sqrt (m i) / (2 * h) * (a + -1 * b)) by (field; exact Hh) end.
  rewrite <- (HarmonicProofs.Sum_scal nf (-1)), <- HarmonicProofs.Sum_plus, <- HarmonicProofs.Sum_scal, Sum_csum. apply csum_ext. intros k _.
  rewrite <- (HarmonicProofs.Sum_scal nq (-1)), <- HarmonicProofs.Sum_plus, <- HarmonicProofs.Sum_scal, Sum_csum. apply csum_ext. intros q _.
  set (e := ev q k (ty_of i) c). set (th := vdot (gq (Q q)) (P i)).
  replace (Cmult (Cconj (Cmult (signal q k (S t)) e)) (expmi th)) with (Cconj (Cmult (Cmult (signal q k (S t)) e) (Cconj (expmi th)))) by (rewrite Cmult_conj', Cconj_conj'; reflexivity).
  rewrite im_part. f_equal. rewrite !HarmonicProofs.term_value, Sum3_comp. fold th. fold (ty_of i). fold e.
  replace (th - 2 * PI * fr q k * (INR (S (S t)) * dt)) with (th - 2 * PI * fr q k * (INR (S t) * dt) - 2 * PI * fr q k * dt) by (rewrite !S_INR; ring).
  replace (th - 2 * PI * fr q k * (INR t * dt)) with (th - 2 * PI * fr q k * (INR (S t) * dt) + 2 * PI * fr q k * dt) by (rewrite !S_INR; ring).
  set (phi := 2 * PI * fr q k * (INR (S t) * dt)). set (d := 2 * PI * fr q k * dt).
  assert (W := wave_difference e (th - phi) d). unfold HarmonicProofs.included, signal, gain. fold d. fold phi.
  destruct (Rlt_dec mf (Rabs (fr q k))) as [I|I].
  - match goal with |- sqrt (m i) / (2 * h) * (1 * (exp p0 * (?A / sqrt (m i) * ?u)) + -1 * (1 * (exp p0 * (?A / sqrt (m i) * ?w)))) = _ =>
      replace (sqrt (m i) / (2 * h) * (1 * (exp p0 * (A / sqrt (m i) * u)) + -1 * (1 * (exp p0 * (A / sqrt (m i) * w))))) with (exp p0 * A * (u - w) / (2 * h)) by (field; split; [lra|exact Hh]) end.
    rewrite W. unfold expmi. cbn [fst snd RtoC Cmult Cconj]. rewrite cos_minus, sin_minus. field. exact Hh.
  - unfold expmi. cbn [fst snd RtoC Cmult Cconj]. unfold Rdiv. ring.
Qed.

Context (HQ : forall i, (i < nq)%nat -> commensurate nx ny nz (Q i)) (HD : forall i j, (i < nq)%nat -> (j < nq)%nat -> integral (vsub (Q i) (Q j)) -> i = j).
Context (j j' : nat) (Hj : (j < nq)%nat) (Hj' : (j' < nq)%nat) (Hjj : integral (vadd (Q j) (Q j'))).
(** phase between the wave vectors -Q j and Q j' at an atom of the cell: 1 if they are equal, not just equivalent *)
Definition shift_phase (ty : nat) : C := expmi (vdot (gq (vadd (Q j) (Q j'))) (nth ty pos vzero)).
Lemma comm_sub a b : commensurate nx ny nz a -> commensurate nx ny nz b -> commensurate nx ny nz (vsub a b).
Proof. intros (a1 & a2 & a3 & E1 & E2 & E3) (b1 & b2 & b3 & F1 & F2 & F3). exists (a1 - b1)%Z, (a2 - b2)%Z, (a3 - b3)%Z. cbn [vsub vx vy vz]. rewrite !minus_IZR, <- E1, <- E2, <- E3, <- F1, <- F2, <- F3. repeat split; ring. Qed.
Lemma comm_add a b : commensurate nx ny nz a -> commensurate nx ny nz b -> commensurate nx ny nz (vadd a b).
Proof. intros (a1 & a2 & a3 & E1 & E2 & E3) (b1 & b2 & b3 & F1 & F2 & F3). exists (a1 + b1)%Z, (a2 + b2)%Z, (a3 + b3)%Z. cbn [vadd vx vy vz]. rewrite !plus_IZR, <- E1, <- E2, <- E3, <- F1, <- F2, <- F3. repeat split; ring. Qed.
Lemma integral_diff a b c : integral (vadd a b) -> integral (vadd a c) -> integral (vsub b c).
Proof.
  intros (a1 & a2 & a3 & E) (b1 & b2 & b3 & F). exists (a1 - b1)%Z, (a2 - b2)%Z, (a3 - b3)%Z. rewrite !minus_IZR. assert (E1 := f_equal vx E). assert (E2 := f_equal vy E). assert (E3 := f_equal vz E). assert (F1 := f_equal vx F). assert (F2 := f_equal vy F). assert (F3 := f_equal vz F).
  cbn [vadd vx vy vz] in *. apply vec_eq; cbn [vsub vx vy vz]; lra.
Qed.
Lemma signal_at_q v t ty c (A : nat -> nat -> nat -> C) : (ty < length pos)%nat -> (c < 3)%nat ->
  (forall i, (i < natoms)%nat -> v (S t) i c = RtoC ((x (S (S t)) i c - x t i c) / (2 * h))) ->
  project_onto_wave_vector natoms (length pos) 3 ty_of (fun i => PhonopyLinkProps.comp (P i)) (PhonopyLinkProps.comp (gq (Q j))) v m (-1) = Some A ->
  A (S t) ty c = Cmult (RtoC (sqrt (INR (nx * ny * nz)))) (Cmult mih (Cminus (csum nf (fun k => Cmult (signal j k (S t)) (ev j k ty c)))
                                                                         (Cmult (csum nf (fun k => Cconj (Cmult (signal j' k (S t)) (ev j' k ty c)))) (shift_phase ty)))).
Proof.
  intros Hty Hc Hv EA.
  destruct (project_ok natoms (length pos) 3 ty_of (fun i => PhonopyLinkProps.comp (P i)) (PhonopyLinkProps.comp (gq (Q j))) v m (-1)) as [A' [EA' HA]].
  { intros i Hii. destruct (site_at cell pos nx ny nz types Hx Hy Hz Ht i Hii) as (_ & _ & _ & k0 & _ & _ & _ & _ & Hk0 & Tk & _). change (ty_of i) with (nth i types 0%nat). rewrite Tk. exact Hk0. }
  rewrite EA in EA'. injection EA' as <-. rewrite (HA (S t) ty c Hc).
  assert (HN : (0 < nx * ny * nz)%nat) by nia. assert (HNR : 0 < INR (nx * ny * nz)) by (apply lt_0_INR; exact HN).
  assert (EN : INR natoms / INR (length pos) = INR (nx * ny * nz)). { unfold natoms. rewrite mult_INR. field. apply not_0_INR. lia. }
  rewrite EN.
  assert (X : csum_if natoms (fun i => (ty_of i =? ty)%nat && kept ty_of (-1) i)%bool (fun i => Cmult (Cmult (v (S t) i c) (RtoC (sqrt (m i)))) (expmi (rdot 3 (PhonopyLinkProps.comp (gq (Q j))) (PhonopyLinkProps.comp (P i)))))
    = Cmult (RtoC (INR (nx * ny * nz))) (Cmult mih (Cminus (csum nf (fun k => Cmult (signal j k (S t)) (ev j k ty c))) (Cmult (csum nf (fun k => Cconj (Cmult (signal j' k (S t)) (ev j' k ty c)))) (shift_phase ty))))).
  { unfold csum_if.
    rewrite (csum_ext natoms _ (fun i => csum nf (fun k => csum nq (fun q => if (ty_of i =? ty)%nat then Cmult mih (Cminus (Cmult (Cmult (signal q k (S t)) (ev q k ty c)) (expmi (vdot (gq (vsub (Q j) (Q q))) (P i))))
         (Cmult (Cconj (Cmult (signal q k (S t)) (ev q k ty c))) (expmi (vdot (gq (vadd (Q j) (Q q))) (P i))))) else RtoC 0)))).
    2:{ intros i Hii. unfold kept. cbn [Z.leb Z.compare orb]. rewrite andb_true_r, rdot_comp. destruct (Nat.eqb_spec (ty_of i) ty) as [Ei|Ei].
        - rewrite (Hv i Hii), step_velocity, Ei. rewrite <- csum_scal_r. apply csum_ext. intros k _. rewrite <- csum_scal_r. apply csum_ext. intros q _.
          unfold gq. rewrite gq_sub, gq_add, vdot_vadd, vdot_vsub. fold gq. unfold Rminus. rewrite !expmi_add, <- expmi_conj. ring.
        - symmetry. rewrite (csum_ext nf _ (fun _ => RtoC 0)) by (intros; apply csum_0). apply csum_0. }
    rewrite csum_swap. rewrite (csum_ext nf _ (fun k => Cmult (RtoC (INR (nx * ny * nz))) (Cmult mih (Cminus (Cmult (signal j k (S t)) (ev j k ty c)) (Cmult (Cconj (Cmult (signal j' k (S t)) (ev j' k ty c))) (shift_phase ty)))))).
    2:{ intros k _. rewrite csum_swap.
        rewrite (csum_ext nq _ (fun q => Cplus (if (j =? q)%nat then Cmult (RtoC (INR (nx * ny * nz))) (Cmult mih (Cmult (signal q k (S t)) (ev q k ty c))) else RtoC 0)
                                             (if (j' =? q)%nat then Cmult (RtoC (INR (nx * ny * nz))) (Cmult mih (Copp (Cmult (Cconj (Cmult (signal q k (S t)) (ev q k ty c))) (shift_phase ty)))) else RtoC 0))).
        - rewrite csum_plus. rewrite (csum_delta nq j (fun q => Cmult (RtoC (INR (nx * ny * nz))) (Cmult mih (Cmult (signal q k (S t)) (ev q k ty c)))) Hj).
          rewrite (csum_delta nq j' (fun q => Cmult (RtoC (INR (nx * ny * nz))) (Cmult mih (Copp (Cmult (Cconj (Cmult (signal q k (S t)) (ev q k ty c))) (shift_phase ty))))) Hj'). unfold Cminus. ring.
        - intros q Hq. set (a := Cmult (signal q k (S t)) (ev q k ty c)).
          rewrite (csum_ext natoms _ (fun i => Cplus (Cmult (Cmult mih a) (if (ty_of i =? ty)%nat then expmi (vdot (gq (vsub (Q j) (Q q))) (P i)) else RtoC 0))
                                                    (Cmult (Cmult mih (Copp (Cconj a))) (if (ty_of i =? ty)%nat then expmi (vdot (gq (vadd (Q j) (Q q))) (P i)) else RtoC 0)))).
          2:{ intros i _. destruct (ty_of i =? ty)%nat; unfold Cminus; ring. }
          rewrite csum_plus, !csum_scal. f_equal.
          + destruct (Nat.eqb_spec j q) as [<-|N].
            * assert (I : integral (vsub (Q j) (Q j))) by (exists 0%Z, 0%Z, 0%Z; apply vec_eq; cbn [vsub vx vy vz]; ring).
              rewrite (lattice_in inv cell pos nx ny nz types Hx Hy Hz Hi Ht (vsub (Q j) (Q j)) ty Hty I : csum natoms (fun i => if (ty_of i =? ty)%nat then expmi (vdot (gq (vsub (Q j) (Q j))) (P i)) else RtoC 0) = _).
              rewrite gq_sub, vdot_vsub, Rminus_diag_eq, expmi_0 by reflexivity. ring.
            * rewrite (lattice_out inv cell pos nx ny nz types Hx Hy Hz Hi Ht (vsub (Q j) (Q q)) ty Hty : _ -> _ -> csum natoms (fun i => if (ty_of i =? ty)%nat then expmi (vdot (gq (vsub (Q j) (Q q))) (P i)) else RtoC 0) = _); [ring|apply comm_sub; apply HQ; assumption|].
              intros I. apply N. apply HD; assumption.
          + destruct (Nat.eqb_spec j' q) as [<-|N].
            * rewrite (lattice_in inv cell pos nx ny nz types Hx Hy Hz Hi Ht (vadd (Q j) (Q j')) ty Hty Hjj : csum natoms (fun i => if (ty_of i =? ty)%nat then expmi (vdot (gq (vadd (Q j) (Q j'))) (P i)) else RtoC 0) = _).
              unfold shift_phase, gq. ring.
            * rewrite (lattice_out inv cell pos nx ny nz types Hx Hy Hz Hi Ht (vadd (Q j) (Q q)) ty Hty : _ -> _ -> csum natoms (fun i => if (ty_of i =? ty)%nat then expmi (vdot (gq (vadd (Q j) (Q q))) (P i)) else RtoC 0) = _); [ring|apply comm_add; apply HQ; assumption|].
              intros I. apply N. apply HD; try assumption. exact (integral_diff _ _ _ Hjj I). }
    rewrite !csum_scal. f_equal. f_equal. unfold Cminus. rewrite csum_plus. f_equal.
    rewrite <- csum_scal_r. exact (csum_opp nf (fun k => Cmult (Cconj (Cmult (signal j' k (S t)) (ev j' k ty c))) (shift_phase ty))). }
  rewrite X. assert (Es : sqrt (INR (nx * ny * nz)) * sqrt (INR (nx * ny * nz)) = INR (nx * ny * nz)) by (apply sqrt_sqrt; lra).
  assert (Hs : sqrt (INR (nx * ny * nz)) <> 0) by (apply Rgt_not_eq, sqrt_lt_R0; exact HNR).
  rewrite <- Es at 1. rewrite RtoC_mult. unfold Cdiv. rewrite <- RtoC_inv by exact Hs.
  match goal with |- Cmult (Cmult (Cmult (RtoC ?s) (RtoC ?s)) ?Y) (RtoC (/ ?s)) = _ => replace (Cmult (Cmult (Cmult (RtoC s) (RtoC s)) Y) (RtoC (/ s))) with (Cmult (Cmult (RtoC s) Y) (Cmult (RtoC s) (RtoC (/ s)))) by ring end.
  rewrite <- RtoC_mult, Rinv_r by exact Hs. ring.
Qed.
(** projection on mode l of wave vector j *)
Lemma mode_overlaps v t l (A : nat -> nat -> nat -> C) : (l < nf)%nat ->
  orthonormal (length pos) 3 nf (ev j) ->
  (forall i c, (i < natoms)%nat -> (c < 3)%nat -> v (S t) i c = RtoC ((x (S (S t)) i c - x t i c) / (2 * h))) ->
  project_onto_wave_vector natoms (length pos) 3 ty_of (fun i => PhonopyLinkProps.comp (P i)) (PhonopyLinkProps.comp (gq (Q j))) v m (-1) = Some A ->
  project_onto_phonon (length pos) 3 nf A (ev j) (S t) l =
  Cmult (RtoC (sqrt (INR (nx * ny * nz)))) (Cmult mih (Cminus (signal j l (S t))
     (csum nf (fun k => Cmult (Cconj (signal j' k (S t))) (csum (length pos) (fun ty => csum 3 (fun c => Cmult (Cmult (Cconj (ev j' k ty c)) (shift_phase ty)) (Cconj (ev j l ty c))))))))).
Proof.
  intros Hl Ho Hv EA. rewrite phonon_eq by exact Hl. unfold project_onto_phonon2.
  rewrite (csum_ext (length pos) _ (fun ty => csum 3 (fun c => Cmult (RtoC (sqrt (INR (nx * ny * nz)))) (Cmult mih (Cminus (csum nf (fun k => Cmult (signal j k (S t)) (Cmult (ev j k ty c) (Cconj (ev j l ty c)))))
      (csum nf (fun k => Cmult (Cconj (signal j' k (S t))) (Cmult (Cmult (Cconj (ev j' k ty c)) (shift_phase ty)) (Cconj (ev j l ty c)))))))))).
  2:{ intros ty Hty. apply csum_ext. intros c Hc. rewrite (signal_at_q v t ty c A Hty Hc (fun i Hi => Hv i c Hi Hc) EA).
      rewrite (csum_ext nf (fun k => Cmult (signal j k (S t)) (Cmult (ev j k ty c) (Cconj (ev j l ty c)))) (fun k => Cmult (Cmult (signal j k (S t)) (ev j k ty c)) (Cconj (ev j l ty c)))) by (intros; ring).
      rewrite (csum_ext nf (fun k => Cmult (Cconj (signal j' k (S t))) (Cmult (Cmult (Cconj (ev j' k ty c)) (shift_phase ty)) (Cconj (ev j l ty c)))) (fun k => Cmult (Cconj (Cmult (signal j' k (S t)) (ev j' k ty c))) (Cmult (shift_phase ty) (Cconj (ev j l ty c))))) by (intros; rewrite Cmult_conj'; ring).
      rewrite !csum_scal_r. ring. }
  rewrite (csum_ext (length pos) _ (fun ty => Cmult (RtoC (sqrt (INR (nx * ny * nz)))) (Cmult mih (csum 3 (fun c => Cminus (csum nf (fun k => Cmult (signal j k (S t)) (Cmult (ev j k ty c) (Cconj (ev j l ty c)))))
      (csum nf (fun k => Cmult (Cconj (signal j' k (S t))) (Cmult (Cmult (Cconj (ev j' k ty c)) (shift_phase ty)) (Cconj (ev j l ty c)))))))))).
  2:{ intros ty _. rewrite !csum_scal. reflexivity. }
  rewrite !csum_scal. f_equal. f_equal.
  rewrite (csum_ext (length pos) _ (fun ty => Cplus (csum nf (fun k => csum 3 (fun c => Cmult (signal j k (S t)) (Cmult (ev j k ty c) (Cconj (ev j l ty c)))))) (csum nf (fun k => csum 3 (fun c => Copp (Cmult (Cconj (signal j' k (S t))) (Cmult (Cmult (Cconj (ev j' k ty c)) (shift_phase ty)) (Cconj (ev j l ty c))))))))).
  2:{ intros ty _. unfold Cminus. rewrite csum_plus, csum_opp. rewrite (csum_swap 3 nf), (csum_swap 3 nf). f_equal. rewrite <- csum_opp. apply csum_ext. intros k _. rewrite csum_opp. reflexivity. }
  rewrite csum_plus. unfold Cminus. rewrite (csum_swap (length pos) nf), (csum_swap (length pos) nf). f_equal.
  - rewrite (csum_ext nf _ (fun k => if (l =? k)%nat then signal j k (S t) else RtoC 0)); [exact (csum_delta nf l (fun k => signal j k (S t)) Hl)|].
    intros k Hk. rewrite (csum_ext (length pos) _ (fun ty => Cmult (signal j k (S t)) (csum 3 (fun c => Cmult (ev j k ty c) (Cconj (ev j l ty c)))))) by (intros; apply csum_scal).
    rewrite csum_scal, (Ho k l Hk Hl). rewrite (Nat.eqb_sym l k). destruct (k =? l)%nat; ring.
  - rewrite <- csum_opp. apply csum_ext. intros k _. rewrite <- csum_scal, <- csum_opp. apply csum_ext. intros ty _. rewrite <- csum_scal, <- csum_opp. reflexivity.
Qed.
End RoundTrip.

(** ---------- C100 ---------- *)
Lemma amplitude_full nat_ n T f N : nat_ = (n * N)%nat -> (0 < n)%nat -> (0 < N)%nat -> sqrt (INR N) * HarmonicModel.amplitude 3 nat_ n N T f = sqrt (3 * kB * T) / (f * 2 * PI).
Proof.
  intros -> Hn HN. unfold HarmonicModel.amplitude, HarmonicModel.number_of_primitive_cells, HarmonicModel.atoms_relation. unfold HarmonicModel.kb_boltzmann, kB.
  assert (0 < INR n) by (apply lt_0_INR; lia). assert (0 < INR N) by (apply lt_0_INR; lia). rewrite !mult_INR.
  match goal with |- sqrt (INR N) * (sqrt ?a / ?d) = sqrt ?b / ?d => replace (sqrt (INR N) * (sqrt a / d)) with (sqrt (INR N) * sqrt a / d) by (unfold Rdiv; ring); rewrite <- sqrt_mult_alt by lra; replace (INR N * a) with b; [reflexivity|] end.
  cbn [INR]. field. split; lra.
Qed.
(** the phonon mode l at the wave vector Q j of an ideal harmonic trajectory, with velocities by central differences: a pure sine of the mode's frequency, and
    amplitude sqrt(3 kB T) * sin(2 pi f dt)/(2 pi f h) whatever the cell, the supercell, the masses and the other modes (modes below the cutoff are silent).
    Q j' is the wave vector opposite to Q j, and the eigenvectors there are the complex conjugates *)
Theorem C100_mode_signal : forall inv cell pos nx ny nz types m nq nf Q fr ev T mf p0 dt h j j' l v vc t,
  crystal inv cell pos nx ny nz types m -> wave_vectors nx ny nz nq Q -> h <> 0 -> 0 <= mf -> (0 < length pos)%nat ->
  (j < nq)%nat -> (j' < nq)%nat -> integral (vadd (Q j) (Q j')) -> (l < nf)%nat -> orthonormal (length pos) 3 nf (ev j) ->
  (forall k, (k < nf)%nat -> fr j' k = fr j k) ->
  (forall k ty c, (k < nf)%nat -> (ty < length pos)%nat -> (c < 3)%nat -> ev j' k ty c = Cmult (Cconj (ev j k ty c)) (cell_phase inv cell pos (vadd (Q j) (Q j')) ty)) ->
  let x := ideal inv cell pos nx ny nz types m nq nf Q fr ev T mf p0 dt in
  (forall i c, (i < length pos * (nx * ny * nz))%nat -> (c < 3)%nat -> v (S t) i c = RtoC ((x (S (S t)) i c - x t i c) / (2 * h))) ->
  at_wave_vector inv cell pos nx ny nz types m v (Q j) = Some vc ->
  project_onto_phonon (length pos) 3 nf vc (ev j) (S t) l =
    RtoC (if Rlt_dec mf (Rabs (fr j l)) then - exp p0 * (sqrt (3 * kB * T) / (2 * PI * fr j l)) * (sin (2 * PI * fr j l * dt) / h) * sin (2 * PI * fr j l * (INR (S t) * dt)) else 0).
Proof.
  intros inv cell pos nx ny nz types m nq nf Q fr ev T mf p0 dt h j j' l v vc t (Hx & Hy & Hz & Hi & Ht & Hm) (HN & HQ & HD) Hh _ Hp Hj Hj' Hjj Hl Ho Hf He x Hv EA.
  rewrite (mode_overlaps inv cell pos nx ny nz types Hx Hy Hz Hi Ht m Hm nq nf Q fr ev T mf p0 dt h Hh HQ HD j j' Hj Hj' Hjj v t l vc Hl Ho Hv EA).
  rewrite (csum_ext nf _ (fun k => if (l =? k)%nat then Cconj (signal pos nx ny nz nq fr T mf p0 dt h j' k (S t)) else RtoC 0)).
  2:{ intros k Hk. rewrite (csum_ext (length pos) _ (fun ty => csum 3 (fun c => Cmult (ev j k ty c) (Cconj (ev j l ty c))))).
      - rewrite (Ho k l Hk Hl), (Nat.eqb_sym l k). destruct (k =? l)%nat; ring.
      - intros ty Hty. apply csum_ext. intros c Hc. rewrite (He k ty c Hk Hty Hc). unfold cell_phase, shift_phase. rewrite Cmult_conj', Cconj_conj'.
        set (ph := expmi _). assert (U : Cmult (Cconj ph) ph = RtoC 1). { unfold ph. rewrite expmi_conj, <- expmi_add, Rplus_opp_l. apply expmi_0. }
        transitivity (Cmult (Cmult (Cmult (Cconj ph) ph) (ev j k ty c)) (Cconj (ev j l ty c))); [ring|rewrite U; ring]. }
  rewrite (csum_delta nf l (fun k => Cconj (signal pos nx ny nz nq fr T mf p0 dt h j' k (S t))) Hl).
  assert (Es : signal pos nx ny nz nq fr T mf p0 dt h j' l (S t) = signal pos nx ny nz nq fr T mf p0 dt h j l (S t)) by (unfold signal, gain; rewrite (Hf l Hl); reflexivity).
  rewrite Es, im_part, <- RtoC_mult. f_equal. unfold signal, gain, expmi. cbn [fst snd RtoC Cmult]. rewrite HN.
  assert (0 < nx * ny * nz)%nat by nia.
  destruct (Rlt_dec mf (Rabs (fr j l))) as [I|I].
  - assert (E := amplitude_full (length pos * (nx * ny * nz)) (length pos) T (fr j l) (nx * ny * nz) eq_refl Hp H).
    set (s := sqrt (INR (nx * ny * nz))) in *. set (a := HarmonicModel.amplitude _ _ _ _ _ _) in *.
    replace (2 * PI * fr j l) with (fr j l * 2 * PI) by ring. rewrite <- E. ring.
  - unfold Rdiv. ring.
Qed.
Print Assumptions C100_mode_signal.

(** eigenvectors of different eigenvalues do not overlap *)
Lemma no_overlap n (D : nat -> nat -> nat -> nat -> C) (w e : nat -> nat -> C) lw le :
  (forall a c b d, (a < n)%nat -> (c < 3)%nat -> (b < n)%nat -> (d < 3)%nat -> D b d a c = Cconj (D a c b d)) ->
  (forall a c, (a < n)%nat -> (c < 3)%nat -> csum n (fun b => csum 3 (fun d => Cmult (D a c b d) (w b d))) = Cmult (RtoC lw) (w a c)) ->
  (forall a c, (a < n)%nat -> (c < 3)%nat -> csum n (fun b => csum 3 (fun d => Cmult (D a c b d) (e b d))) = Cmult (RtoC le) (e a c)) ->
  lw <> le -> csum n (fun a => csum 3 (fun c => Cmult (w a c) (Cconj (e a c)))) = RtoC 0.
Proof.
  intros HH Hw He N. set (o := csum n (fun a => csum 3 (fun c => Cmult (w a c) (Cconj (e a c))))).
  assert (E : Cmult (RtoC lw) o = Cmult (RtoC le) o).
  { unfold o. rewrite <- !csum_scal.
    transitivity (csum n (fun a => csum 3 (fun c => csum n (fun b => csum 3 (fun d => Cmult (Cmult (D a c b d) (w b d)) (Cconj (e a c))))))).
    - apply csum_ext. intros a Ha. rewrite <- csum_scal. apply csum_ext. intros c Hc. rewrite Cmult_assoc, <- (Hw a c Ha Hc), <- csum_scal_r. apply csum_ext. intros b _. rewrite csum_scal_r. reflexivity.
    - transitivity (csum n (fun b => csum 3 (fun d => csum n (fun a => csum 3 (fun c => Cmult (Cmult (D a c b d) (w b d)) (Cconj (e a c))))))).
      + rewrite (csum_ext n _ (fun a => csum n (fun b => csum 3 (fun c => csum 3 (fun d => Cmult (Cmult (D a c b d) (w b d)) (Cconj (e a c))))))) by (intros; apply csum_swap).
        rewrite csum_swap. apply csum_ext. intros b _.
        rewrite (csum_ext n _ (fun a => csum 3 (fun d => csum 3 (fun c => Cmult (Cmult (D a c b d) (w b d)) (Cconj (e a c)))))) by (intros; apply csum_swap).
        rewrite csum_swap. reflexivity.
      + apply csum_ext. intros b Hb. rewrite <- csum_scal. apply csum_ext. intros d Hd.
        transitivity (Cmult (w b d) (Cconj (Cmult (RtoC le) (e b d)))); [|rewrite Cmult_conj'; replace (Cconj (RtoC le)) with (RtoC le) by (apply injective_projections; cbn; ring); ring].
        rewrite <- (He b d Hb Hd), csum_conj, <- csum_scal. apply csum_ext. intros a Ha. rewrite csum_conj, <- csum_scal. apply csum_ext. intros c Hc.
        rewrite (HH a c b d Ha Hc Hb Hd), !Cmult_conj', Cconj_conj'. ring. }
  assert (Z : Cmult (RtoC (lw - le)) o = RtoC 0). { rewrite RtoC_minus. replace (Cmult (Cminus (RtoC lw) (RtoC le)) o) with (Cminus (Cmult (RtoC lw) o) (Cmult (RtoC le) o)) by (unfold Cminus; ring). rewrite E. unfold Cminus. ring. }
  assert (NZ : RtoC (lw - le) <> RtoC 0) by (intros X; apply RtoC_inj' in X; lra).
  transitivity (Cmult (Cinv (RtoC (lw - le))) (Cmult (RtoC (lw - le)) o)); [|rewrite Z; ring]. rewrite Cmult_assoc, Cinv_l by exact NZ. ring.
Qed.
(** with the frequencies and eigenvectors of dynamical matrices (hermitian, and opposite at opposite wave vectors), degenerate or not, in any phase: the signal
    of the mode contains the mode's frequency and no other.  Here sampled every dt: u(t+dt) + u(t-dt) = 2 cos(2 pi f dt) u(t) *)
Theorem C100_pure_frequency : forall inv cell pos nx ny nz types m nq nf Q fr ev T mf p0 dt h j j' l v vc t units (D D' : nat -> nat -> nat -> nat -> C),
  crystal inv cell pos nx ny nz types m -> wave_vectors nx ny nz nq Q -> h <> 0 -> 0 <= mf -> 0 < units ->
  (j < nq)%nat -> (j' < nq)%nat -> integral (vadd (Q j) (Q j')) -> (l < nf)%nat -> orthonormal (length pos) 3 nf (ev j) ->
  (forall a c b d, (a < length pos)%nat -> (c < 3)%nat -> (b < length pos)%nat -> (d < 3)%nat ->
     D b d a c = Cconj (D a c b d) /\
     D' a c b d = Cmult (Cconj (D a c b d)) (Cmult (cell_phase inv cell pos (vadd (Q j) (Q j')) a) (Cconj (cell_phase inv cell pos (vadd (Q j) (Q j')) b)))) ->
  (forall k a c, (k < nf)%nat -> (a < length pos)%nat -> (c < 3)%nat ->
     csum (length pos) (fun b => csum 3 (fun d => Cmult (D a c b d) (ev j k b d))) = Cmult (RtoC (eigenvalue units (fr j k))) (ev j k a c) /\
     csum (length pos) (fun b => csum 3 (fun d => Cmult (D' a c b d) (ev j' k b d))) = Cmult (RtoC (eigenvalue units (fr j' k))) (ev j' k a c)) ->
  let x := ideal inv cell pos nx ny nz types m nq nf Q fr ev T mf p0 dt in
  (forall s i c, (i < length pos * (nx * ny * nz))%nat -> (c < 3)%nat -> v (S s) i c = RtoC ((x (S (S s)) i c - x s i c) / (2 * h))) ->
  at_wave_vector inv cell pos nx ny nz types m v (Q j) = Some vc ->
  let u s := project_onto_phonon (length pos) 3 nf vc (ev j) s l in
  Cplus (u (S (S (S t)))) (u (S t)) = Cmult (RtoC (2 * cos (2 * PI * fr j l * dt))) (u (S (S t))).
Proof.
  intros inv cell pos nx ny nz types m nq nf Q fr ev T mf p0 dt h j j' l v vc t units D D' (Hx & Hy & Hz & Hi & Ht & Hm) (HN & HQ & HD) Hh _ Hu Hj Hj' Hjj Hl Ho HDD Hev x Hv EA u.
  unfold u.
  rewrite !(mode_overlaps inv cell pos nx ny nz types Hx Hy Hz Hi Ht m Hm nq nf Q fr ev T mf p0 dt h Hh HQ HD j j' Hj Hj' Hjj v _ l vc Hl Ho (Hv _) EA).
  set (sg := signal pos nx ny nz nq fr T mf p0 dt h). set (F := cell_phase inv cell pos (vadd (Q j) (Q j'))).
  set (ov := fun k => csum (length pos) (fun ty => csum 3 (fun c => Cmult (Cmult (Cconj (ev j' k ty c)) (F ty)) (Cconj (ev j l ty c))))).
  change (fun k => Cmult (Cconj (sg j' k ?s)) _) with (fun k => Cmult (Cconj (sg j' k s)) (ov k)).
  assert (UF : forall a, Cmult (Cconj (F a)) (F a) = RtoC 1). { intros a. unfold F, cell_phase. rewrite expmi_conj, <- expmi_add, Rplus_opp_l. apply expmi_0. }
  assert (OV : forall k, (k < nf)%nat -> ov k = RtoC 0 \/ fr j' k = fr j l).
  { intros k Hk. destruct (Req_dec (eigenvalue units (fr j' k)) (eigenvalue units (fr j l))) as [E|E].
    - right. rewrite <- (frequency_of_eigenvalue units (fr j' k) Hu), E. apply frequency_of_eigenvalue, Hu.
    - left. unfold ov. apply (no_overlap (length pos) D (fun a c => Cmult (Cconj (ev j' k a c)) (F a)) (ev j l) (eigenvalue units (fr j' k)) (eigenvalue units (fr j l))); [intros; apply HDD; assumption| |intros a c Ha Hc; apply (Hev l a c Hl Ha Hc)|exact E].
      intros a c Ha Hc. transitivity (Cmult (F a) (Cconj (csum (length pos) (fun b => csum 3 (fun d => Cmult (D' a c b d) (ev j' k b d)))))).
      + rewrite csum_conj, <- csum_scal. apply csum_ext. intros b Hb. rewrite csum_conj, <- csum_scal. apply csum_ext. intros d Hd.
        destruct (HDD a c b d Ha Hc Hb Hd) as [_ ->]. fold F. rewrite !Cmult_conj', !Cconj_conj'.
        transitivity (Cmult (Cmult (Cconj (F a)) (F a)) (Cmult (D a c b d) (Cmult (Cconj (ev j' k b d)) (F b)))); [rewrite UF; ring|ring].
      + destruct (Hev k a c Hk Ha Hc) as [_ ->]. rewrite Cmult_conj'. replace (Cconj (RtoC (eigenvalue units (fr j' k)))) with (RtoC (eigenvalue units (fr j' k))) by (apply injective_projections; cbn; ring). ring. }
  set (w := 2 * PI * fr j l * dt).
  assert (EX : forall a, Cplus (expmi (a + w)) (expmi (a - w)) = Cmult (RtoC (2 * cos w)) (expmi a)).
  { intros a. unfold expmi. apply injective_projections; cbn; rewrite ?cos_plus, ?cos_minus, ?sin_plus, ?sin_minus; ring. }
  assert (SG : forall i k, fr i k = fr j l -> forall s, Cplus (sg i k (S (S s))) (sg i k s) = Cmult (RtoC (2 * cos w)) (sg i k (S s))).
  { intros i k E s. unfold sg, signal. rewrite E. replace (2 * PI * fr j l * (INR (S (S s)) * dt)) with (2 * PI * fr j l * (INR (S s) * dt) + w) by (unfold w; rewrite !S_INR; ring).
    replace (2 * PI * fr j l * (INR s * dt)) with (2 * PI * fr j l * (INR (S s) * dt) - w) by (unfold w; rewrite !S_INR; ring).
    generalize (gain pos nx ny nz nq fr T mf p0 dt h i k). intros g. transitivity (Cmult (RtoC g) (Cplus (expmi (2 * PI * fr j l * (INR (S s) * dt) + w)) (expmi (2 * PI * fr j l * (INR (S s) * dt) - w)))); [ring|rewrite EX; ring]. }
  assert (SUM : Cplus (csum nf (fun k => Cmult (Cconj (sg j' k (S (S (S t))))) (ov k))) (csum nf (fun k => Cmult (Cconj (sg j' k (S t))) (ov k)))
    = Cmult (RtoC (2 * cos w)) (csum nf (fun k => Cmult (Cconj (sg j' k (S (S t)))) (ov k)))).
  { rewrite <- csum_plus, <- csum_scal. apply csum_ext. intros k Hk. destruct (OV k Hk) as [->|E]; [ring|].
    assert (X := f_equal Cconj (SG j' k E (S t))). rewrite Cplus_conj', Cmult_conj' in X. replace (Cconj (RtoC (2 * cos w))) with (RtoC (2 * cos w)) in X by (apply injective_projections; cbn; ring).
    rewrite Cmult_assoc, <- X. ring. }
  assert (S1 := SG j l eq_refl (S t)). unfold Cminus.
  match goal with |- Cplus (Cmult ?r (Cmult mih (Cplus ?a (Copp ?b)))) (Cmult ?r (Cmult mih (Cplus ?c (Copp ?d)))) = Cmult ?e (Cmult ?r (Cmult mih (Cplus ?f (Copp ?g)))) =>
    transitivity (Cmult r (Cmult mih (Cplus (Cplus a c) (Copp (Cplus b d))))); [ring|];
    replace (Cplus b d) with (Cmult e g) by (symmetry; exact SUM); replace (Cplus a c) with (Cmult e f) by (symmetry; exact S1) end.
  ring.
Qed.
Print Assumptions C100_pure_frequency.
(** the same starting from coordinates: positions as a periodic MD code writes them (moved by lattice vectors of the supercell), evenly stamped, velocities
    computed by the program; p i is the reference position of atom i, from which it stays less than half a cell away *)
Theorem C100_from_coordinates : forall inv cell pos nx ny nz types m nq nf Q fr ev T mf p0 z t0 j j' l supercell (p : nat -> nat -> R) (written : nat -> list (nat -> R)) vc L t,
  crystal inv cell pos nx ny nz types m -> wave_vectors nx ny nz nq Q -> (0 < z)%Z -> 0 <= mf -> (0 < length pos)%nat ->
  (j < nq)%nat -> (j' < nq)%nat -> integral (vadd (Q j) (Q j')) -> (l < nf)%nat -> orthonormal (length pos) 3 nf (ev j) ->
  (forall k, (k < nf)%nat -> fr j' k = fr j k) ->
  (forall k ty c, (k < nf)%nat -> (ty < length pos)%nat -> (c < 3)%nat -> ev j' k ty c = Cmult (Cconj (ev j k ty c)) (cell_phase inv cell pos (vadd (Q j) (Q j')) ty)) ->
  let dt := IZR z / 100000000 in
  let x := ideal inv cell pos nx ny nz types m nq nf Q fr ev T mf p0 dt in
  DisplacementsModel.Determinant 3 (DisplacementsModel.pymatrix_to_c_array_real 3 supercell) <> 0 ->
  (forall i, (i < length pos * (nx * ny * nz))%nat -> length (written i) = S (S L) /\
     forall s, (s < S (S L))%nat -> VelocitySpec.near 3 supercell (p i) (x s i) /\ VelocitySpec.image 3 supercell (x s i) (nth s (written i) (fun _ => 0))) ->
  at_wave_vector inv cell pos nx ny nz types m (fun s i c => RtoC (nth s (VelocityModel.computed_velocity 3 supercell (p i) (written i) (VelocitySpec.stamps t0 dt (S (S L))) c) 0)) (Q j) = Some vc ->
  (t < L)%nat ->
  project_onto_phonon (length pos) 3 nf vc (ev j) (S t) l =
    RtoC (if Rlt_dec mf (Rabs (fr j l)) then - exp p0 * (sqrt (3 * kB * T) / (2 * PI * fr j l)) * (sin (2 * PI * fr j l * dt) / dt) * sin (2 * PI * fr j l * (INR (S t) * dt)) else 0).
Proof.
  intros inv cell pos nx ny nz types m nq nf Q fr ev T mf p0 z t0 j j' l supercell p written vc L t Hcr HW Hz Hmf Hp Hj Hj' Hjj Hl Ho Hf He dt x HDet Hwr EA Hlt.
  assert (Hdt : dt <> 0). { unfold dt. apply IZR_lt in Hz. lra. }
  refine (C100_mode_signal inv cell pos nx ny nz types m nq nf Q fr ev T mf p0 dt dt j j' l _ vc t Hcr HW Hdt Hmf Hp Hj Hj' Hjj Hl Ho Hf He _ EA).
  intros i c Hi Hc. cbv beta. f_equal. destruct (Hwr i Hi) as [HL HH].
  destruct (VelocityProps.C91_boundary_crossings_invisible 3 supercell (p i) (fun s => x s i) (written i) (VelocitySpec.stamps t0 dt (S (S L))) c L ltac:(lia) HDet Hc HL (fun s Hs => proj1 (HH s Hs)) (fun s Hs => proj2 (HH s Hs))) as (_ & _ & _ & W).
  rewrite (W t Hlt). assert (SA : DynamicsModel.average_time_step (VelocitySpec.stamps t0 dt (S (S L))) = dt) by exact (VelocityProofs.stamps_average t0 z L). rewrite SA. reflexivity.
Qed.
Print Assumptions C100_from_coordinates.
(** zone boundary mode of a cubic crystal of one atom per cell in a 2 x 1 x 1 supercell *)
Example C100_nonvacuous : forall T dt, 0 < T -> 0 < dt ->
  let Q i := match i with O => vzero | _ => V3 (1/2) 0 0 end in
  let ev (_ k _ c : nat) := if (k =? c)%nat then RtoC 1 else RtoC 0 in
  let x := ideal (fun m => m) mid [vzero] 2 1 1 [0; 0]%nat (fun _ => 1) 2 3 Q (fun _ _ => 1) ev T 0 0 dt in
  let v s i c := match s with O => RtoC 0 | S t => RtoC ((x (S (S t)) i c - x t i c) / (2 * dt)) end in
  exists vc, at_wave_vector (fun m => m) mid [vzero] 2 1 1 [0; 0]%nat (fun _ => 1) v (Q 1%nat) = Some vc /\
  forall t, project_onto_phonon 1 3 3 vc (ev 1%nat) (S t) 2 = RtoC (- exp 0 * (sqrt (3 * kB * T) / (2 * PI * 1)) * (sin (2 * PI * 1 * dt) / dt) * sin (2 * PI * 1 * (INR (S t) * dt))).
Proof.
  intros T dt HT Hdt Q ev x v.
  destruct (project_ok 2 1 3 (fun a => nth a [0; 0]%nat 0%nat) (fun a => PhonopyLinkProps.comp (site mid [vzero] 2 1 1 a)) (PhonopyLinkProps.comp (get_q_vector (fun m => m) mid (Q 1%nat))) v (fun _ => 1) (-1)) as [vc [E _]].
  { intros i Hi. destruct i as [|[|i]]; cbn; lia. }
  exists vc. split; [exact E|]. intros t.
  assert (G := C100_mode_signal (fun m => m) mid [vzero] 2 1 1 [0; 0]%nat (fun _ => 1) 2 3 Q (fun _ _ => 1) ev T 0 0 dt dt 1 1 2 v vc t).
  cbv beta in G. destruct (Rlt_dec 0 (Rabs 1)) as [_|N]; [|exfalso; apply N; rewrite Rabs_R1; lra].
  apply G; try lia; try lra; try exact E; clear G.
  - repeat split; try lia; try reflexivity; try (intros; lra); unfold mmul, mid, vmul, vadd, vscale; cbn; f_equal; apply vec_eq; cbn; ring.
  - repeat split; [intros i _; destruct i as [|i]; [exists 0%Z, 0%Z, 0%Z|exists 1%Z, 0%Z, 0%Z]; unfold Q, vzero; cbn; repeat split; lra|].
    intros i k Hi Hk (a & b & c & X). apply (f_equal vx) in X. cbn in X.
    destruct i as [|[|i]], k as [|[|k]]; try lia; exfalso; unfold Q, vzero in X; cbn in X.
    + assert (Y : IZR (2 * a + 1) = 0) by (rewrite plus_IZR, mult_IZR; lra). apply eq_IZR in Y. lia.
    + assert (Y : IZR (2 * a - 1) = 0) by (rewrite minus_IZR, mult_IZR; lra). apply eq_IZR in Y. lia.
  - cbn; lia.
  - exists 1%Z, 0%Z, 0%Z. unfold Q. apply vec_eq; cbn; lra.
  - intros k k' Hk Hk'. destruct k as [|[|[|k]]], k' as [|[|[|k']]]; try lia; unfold ev; cbn; apply injective_projections; cbn; ring.
  - intros; reflexivity.
  - intros k ty c Hk Hty Hc. unfold cell_phase. destruct ty; [|cbn in Hty; lia]. cbn [nth]. replace (vdot _ vzero) with 0 by (unfold vdot, vzero; cbn; ring). rewrite expmi_0. unfold ev. destruct (k =? c)%nat; apply injective_projections; cbn; ring.
  - intros i c _ _. reflexivity.
Qed.
