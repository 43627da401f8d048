(** C28, C29: projections. *)
From Verif Require Import ProjectionModel ProjectionSpec ProjectionProofs.
From Coq Require Import Lra Lia.
Open Scope R_scope.

(** C28: the value of every entry, for every trajectory, masses, type assignment, q and projected atom
    (any negative number: all atoms). *)
Theorem C28_value :
  forall (natoms nprim ndim : nat) (types : nat -> nat) (coords : nat -> nat -> R) (q : nat -> R)
         (v : nat -> nat -> nat -> C) (m : nat -> R) (atom : Z),
  (forall i, (i < natoms)%nat -> (types i < nprim)%nat) ->
  exists a, project_onto_wave_vector natoms nprim ndim types coords q v m atom = Some a /\
  forall t ty k, (k < ndim)%nat ->
  a t ty k = Cdiv (csum_if natoms (fun i => (types i =? ty)%nat && ((atom <=? -1)%Z || (Z.of_nat (types i) =? atom)%Z))%bool
                     (fun i => Cmult (Cmult (v t i k) (RtoC (sqrt (m i)))) (expmi (rdot ndim q (coords i)))))
                  (RtoC (sqrt (INR natoms / INR nprim))).
Proof. exact project_ok. Qed.
Print Assumptions C28_value.
(** Linearity in the velocity. *)
Theorem C28_linear :
  forall natoms nprim ndim types coords q (v w u : nat -> nat -> nat -> C) (al be : C) m atom a b c,
  (forall i, (i < natoms)%nat -> (types i < nprim)%nat) ->
  (forall t i k, u t i k = Cplus (Cmult al (v t i k)) (Cmult be (w t i k))) ->
  project_onto_wave_vector natoms nprim ndim types coords q v m atom = Some a ->
  project_onto_wave_vector natoms nprim ndim types coords q w m atom = Some b ->
  project_onto_wave_vector natoms nprim ndim types coords q u m atom = Some c ->
  forall t ty k, (k < ndim)%nat -> c t ty k = Cplus (Cmult al (a t ty k)) (Cmult be (b t ty k)).
Proof.
  intros natoms nprim ndim types coords q v w u al be m atom a b c Ht Hu Ea Eb Ec t ty k Hk.
  destruct (project_ok natoms nprim ndim types coords q v m atom Ht) as [a' [Ea' Ha]].
  destruct (project_ok natoms nprim ndim types coords q w m atom Ht) as [b' [Eb' Hb]].
  destruct (project_ok natoms nprim ndim types coords q u m atom Ht) as [c' [Ec' Hc]].
  rewrite Ea in Ea'. rewrite Eb in Eb'. rewrite Ec in Ec'. injection Ea' as <-. injection Eb' as <-. injection Ec' as <-.
  rewrite Ha, Hb, Hc by exact Hk. unfold Cdiv. rewrite !Cmult_assoc, <- Cmult_plus_distr_r. f_equal. unfold csum_if.
  rewrite <- !csum_scal, <- csum_plus. apply csum_ext. intros i Hi. rewrite Hu. destruct (_ && _)%bool; ring.
Qed.
Print Assumptions C28_linear.
(** Projecting on atom type p keeps exactly that type's column of the unrestricted projection. *)
Theorem C28_single_type :
  forall natoms nprim ndim types coords q (v : nat -> nat -> nat -> C) m p a b,
  (forall i, (i < natoms)%nat -> (types i < nprim)%nat) ->
  project_onto_wave_vector natoms nprim ndim types coords q v m (-1) = Some a ->
  project_onto_wave_vector natoms nprim ndim types coords q v m (Z.of_nat p) = Some b ->
  forall t ty k, (k < ndim)%nat -> b t ty k = if (ty =? p)%nat then a t ty k else RtoC 0.
Proof.
  intros natoms nprim ndim types coords q v m p a b Ht Ea Eb t ty k Hk.
  destruct (project_ok natoms nprim ndim types coords q v m (-1) Ht) as [a' [Ea' Ha]].
  destruct (project_ok natoms nprim ndim types coords q v m (Z.of_nat p) Ht) as [b' [Eb' Hb]].
  rewrite Ea in Ea'. rewrite Eb in Eb'. injection Ea' as <-. injection Eb' as <-. rewrite Ha, Hb by exact Hk.
  assert (K1 : forall i, kept types (-1) i = true) by reflexivity.
  assert (K2 : forall i, kept types (Z.of_nat p) i = (types i =? p)%nat).
  { intros i. unfold kept. destruct (Z.leb_spec (Z.of_nat p) (-1)); [lia|]. cbn [orb]. destruct (Z.eqb_spec (Z.of_nat (types i)) (Z.of_nat p)); destruct (Nat.eqb_spec (types i) p); try reflexivity; lia. }
  destruct (Nat.eqb_spec ty p) as [->|N].
  - f_equal. apply csum_if_ext; [|reflexivity]. intros i _. rewrite K1, K2. destruct (types i =? p)%nat; reflexivity.
  - unfold csum_if. rewrite (csum_ext natoms _ (fun _ => RtoC 0)).
    + rewrite csum_0. unfold Cdiv. ring.
    + intros i _. rewrite K2. destruct (Nat.eqb_spec (types i) ty); destruct (Nat.eqb_spec (types i) p); try reflexivity. congruence.
Qed.
Print Assumptions C28_single_type.
(** A type index outside the primitive cell makes the call fail instead of being dropped. *)
Theorem C28_bad_type_raises :
  forall natoms nprim ndim types coords q (v : nat -> nat -> nat -> C) m i,
  (i < natoms)%nat -> (nprim <= types i)%nat -> project_onto_wave_vector natoms nprim ndim types coords q v m (-1) = None.
Proof.
  intros. unfold project_onto_wave_vector. rewrite project_loop_fail; [reflexivity|]. exists i. auto.
Qed.
Print Assumptions C28_bad_type_raises.
Example C28_nonvacuous : exists a, project_onto_wave_vector 2 1 3 (fun _ => 0%nat) (fun _ _ => 0) (fun _ => 1) (fun _ i _ => RtoC (INR i + 1)) (fun _ => 1) (-1) = Some a /\
  a 0%nat 0%nat 0%nat = RtoC (3 / sqrt 2).
Proof.
  destruct (project_ok 2 1 3 (fun _ => 0%nat) (fun _ _ => 0) (fun _ => 1) (fun _ i _ => RtoC (INR i + 1)) (fun _ => 1) (-1)) as [a [E H]]; [intros; lia|].
  exists a. split; [exact E|]. rewrite H by lia. unfold csum_if, csum, expmi, kept. cbn [Nat.eqb andb orb Z.leb Z.compare].
  replace (rdot 3 (fun _ => 1) (fun _ => 0)) with 0 by (cbn; ring). rewrite cos_0, sin_0, sqrt_1. cbn [INR].
  replace ((1 + 1) / 1) with 2 by lra. unfold Cdiv. rewrite <- RtoC_inv by (apply Rgt_not_eq, sqrt_lt_R0; lra).
  apply injective_projections; cbn; field; apply Rgt_not_eq, sqrt_lt_R0; lra.
Qed.

(** C29: energy conservation for every number of atoms, dimensions, step, every velocity and every
    orthonormal set of natoms*ndim eigenvectors. *)
Theorem C29_energy_conserved :
  forall (natoms ndim : nat) (vc e : nat -> nat -> nat -> C) (t : nat), (0 < ndim)%nat ->
  orthonormal natoms ndim (natoms * ndim) e ->
  energy1 (natoms * ndim) (project_onto_phonon natoms ndim (natoms * ndim) vc e t) = energy2 natoms ndim (vc t).
Proof. exact energy_conserved. Qed.
Print Assumptions C29_energy_conserved.
Theorem C29_implementations_agree :
  forall (natoms ndim nmodes : nat) (vc e : nat -> nat -> nat -> C) (t k : nat), (k < nmodes)%nat ->
  project_onto_phonon natoms ndim nmodes vc e t k = project_onto_phonon2 natoms ndim vc e t k.
Proof. exact phonon_eq. Qed.
Print Assumptions C29_implementations_agree.
Example C29_nonvacuous : orthonormal 2 1 2 (fun k i _ => match k, i with 0%nat, 0%nat => Cmult Ci (RtoC (3/5)) | 0%nat, _ => RtoC (4/5) | _, 0%nat => Cmult Ci (RtoC (4/5)) | _, _ => RtoC (-3/5) end).
Proof.
  intros k l Hk Hl. destruct k as [|[|k]]; [| |lia]; (destruct l as [|[|l]]; [| |lia]); cbn [csum Nat.eqb]; apply injective_projections; cbn; lra.
Qed.
