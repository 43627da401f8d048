(** C124: the projections onto the modes of all the wave vectors of a supercell contain the whole motion (projection.py:7-78, C28/C29, C96, C122): the velocities
    are the superposition of the lattice waves with the projected amplitudes.  Only models of other files are used: SupercellModel, PhonopyLinkModel
    (get_q_vector), ProjectionModel. *)
From Verif Require Import Base SupercellModel SupercellSpec SupercellProofs PhonopyLinkModel PhonopyLinkSpec PhonopyLinkProofs PhonopyLinkProps ProjectionModel ProjectionSpec UnitaryBridge ProjectionProofs ProjectionSymmetryProps RoundTripProps ModeExpansionProofs ModeExpansionProps.
From Verif Require HarmonicSpec.
From Coq Require Import Lra Lia.
From Coquelicot Require Import Complex.
Open Scope R_scope.

(** ---------- specification ---------- *)
(** the velocity field that is left when the waves of all the modes k < nf at all the wave vectors (m1/nx, m2/ny, m3/nz) are added up, the wave of mode k at q
    having the complex amplitude s q k (wave_velocity of ModeExpansionProps: Re (s e e^{i q.R_i}) / sqrt m_i) *)
Definition all_waves (inv : mat -> mat) (cell : mat) (pos : list vec) (nx ny nz : nat) (types : list nat) (m : nat -> R) (nf : nat)
    (e : vec -> nat -> nat -> nat -> C) (s : vec -> nat -> C) (i c : nat) : R :=
  sum_over_q nx ny nz (fun q => sum_over nf (fun k => wave_velocity inv cell pos nx ny nz types m q (e q k) (s q k) i c)).
(** what the program computes for the mode k at the wave vector q and the step t *)
Definition mode_projection (inv : mat -> mat) (cell : mat) (pos : list vec) (nx ny nz : nat) (types : list nat) (m : nat -> R)
    (v : nat -> nat -> nat -> C) (e : vec -> nat -> nat -> nat -> C) (t : nat) (q : vec) (k : nat) : C :=
  project_onto_phonon (length pos) 3 (length pos * 3) (entry (at_wave_vector inv cell pos nx ny nz types m v q)) (e q) t k.

(** ---------- proofs ---------- *)
Lemma completeness natoms ndim (vc e : nat -> nat -> nat -> C) t ty c : (ty < natoms)%nat -> (c < ndim)%nat -> orthonormal natoms ndim (natoms * ndim) e ->
  csum (natoms * ndim) (fun k => Cmult (project_onto_phonon natoms ndim (natoms * ndim) vc e t k) (e k ty c)) = vc t ty c.
Proof.
  intros Hty Hc Ho. assert (Hd : (0 < ndim)%nat) by lia. set (n := (natoms * ndim)%nat). set (e' := fun k j => e k (j / ndim)%nat (j mod ndim)%nat).
  set (u := fun j => vc t (j / ndim)%nat (j mod ndim)%nat). set (j0 := (ty * ndim + c)%nat).
  assert (Hj0 : (j0 < n)%nat) by (unfold j0, n; nia).
  assert (D1 : (j0 / ndim = ty)%nat) by (unfold j0; rewrite Nat.div_add_l, Nat.div_small by lia; lia).
  assert (D2 : (j0 mod ndim = c)%nat) by (unfold j0; rewrite (Nat.add_comm (ty * ndim)), Nat.mod_add, Nat.mod_small by lia; reflexivity).
  assert (G : forall i j, (i < n)%nat -> (j < n)%nat -> csum n (fun k => Cmult (Cconj (e' k i)) (e' k j)) = if (i =? j)%nat then RtoC 1 else RtoC 0).
  { apply (@columns_orthonormal n e'). intros k l Hk Hl. unfold e', n. rewrite <- (nested_flat natoms ndim (fun i d => Cmult (e k i d) (Cconj (e l i d))) Hd). apply Ho; assumption. }
  rewrite (csum_ext n _ (fun k => csum n (fun j => Cmult (u j) (Cmult (Cconj (e' k j)) (e' k j0))))).
  2:{ intros k Hk. rewrite phonon_eq by exact Hk. unfold project_onto_phonon2. rewrite (nested_flat natoms ndim (fun i d => Cmult (vc t i d) (Cconj (e k i d))) Hd).
      rewrite <- csum_scal_r. apply csum_ext. intros j _. unfold u, e'. rewrite D1, D2. ring. }
  rewrite csum_swap. rewrite (csum_ext n _ (fun j => if (j0 =? j)%nat then u j else RtoC 0)).
  - rewrite (csum_delta n j0 u Hj0). unfold u. rewrite D1, D2. reflexivity.
  - intros j Hj. rewrite csum_scal, (G j j0 Hj Hj0), (Nat.eqb_sym j0 j). destruct (j =? j0)%nat; ring.
Qed.
Section Supercell.
Context (inv : mat -> mat) (cell : mat) (pos : list vec) (nx ny nz : nat) (types : list nat) (m : nat -> R) (v : nat -> nat -> nat -> C).
Context (Hx : (nx > 0)%nat) (Hy : (ny > 0)%nat) (Hz : (nz > 0)%nat) (Hi : is_inverse (inv cell) cell)
  (Ht : get_attribute (length pos) (seq 0 (length pos)) [nx; ny; nz] = Some types) (Hm : forall i, 0 < m i).
Let natoms := (length pos * (nx * ny * nz))%nat.
Let P (i : nat) : vec := nth i (get_positions cell pos [nx; ny; nz]) vzero.
Let ty_of (i : nat) : nat := nth i types 0%nat.
Lemma inverse_transform t i c : (i < natoms)%nat -> (c < 3)%nat ->
  Qs nx ny nz (fun a b d => Cmult (entry (at_wave_vector inv cell pos nx ny nz types m v (qpt nx ny nz a b d)) t (ty_of i) c) (Cconj (expmi (vdot (get_q_vector inv cell (qpt nx ny nz a b d)) (P i)))))
  = Cmult (Cmult (v t i c) (RtoC (sqrt (m i)))) (RtoC (sqrt (INR (nx * ny * nz)))).
Proof.
  intros Hii Hc.
  assert (HN : (0 < nx * ny * nz)%nat) by nia. assert (HNR : 0 < INR (nx * ny * nz)) by (apply lt_0_INR; exact HN).
  destruct (site_at cell pos nx ny nz types Hx Hy Hz Ht i Hii) as (_ & _ & _ & k0 & _ & _ & _ & _ & Hk0 & Tk & _). fold (ty_of i) in Tk.
  set (w := fun j => if (ty_of j =? ty_of i)%nat then Cmult (v t j c) (RtoC (sqrt (m j))) else RtoC 0).
  set (g := fun a b d => get_q_vector inv cell (qpt nx ny nz a b d)).
  rewrite (Qs_ext nx ny nz _ (fun a b d => csum natoms (fun j => Cmult (Cmult (RtoC (/ sqrt (INR (nx * ny * nz)))) (w j)) (expmi (vdot (g a b d) (P j) - vdot (g a b d) (P i)))))).
  2:{ intros a b d _ _ _. unfold at_wave_vector.
      match goal with |- context [project_onto_wave_vector ?a ?b ?c ?d ?e ?f ?g ?h ?i] => destruct (project_ok a b c d e f g h i) as [A [EA HA]] end.
      { intros j Hj. destruct (site_at cell pos nx ny nz types Hx Hy Hz Ht j Hj) as (? & ? & ? & k1 & _ & _ & _ & _ & Hk1 & Tk1 & _). rewrite Tk1. exact Hk1. }
      rewrite EA. cbn [entry]. rewrite (HA t (ty_of i) c Hc).
      assert (EN : INR (length pos * (nx * ny * nz)) / INR (length pos) = INR (nx * ny * nz)). { rewrite mult_INR. field. apply not_0_INR. lia. }
      rewrite EN. unfold Cdiv, csum_if. rewrite <- RtoC_inv by (apply Rgt_not_eq, sqrt_lt_R0; exact HNR).
      rewrite <- !csum_scal_r. apply csum_ext. intros j _. unfold w, kept. cbn [Z.leb Z.compare orb]. rewrite andb_true_r, rdot_comp. fold (ty_of j).
      unfold Rminus. rewrite expmi_add, <- expmi_conj. unfold site. fold (P j). fold (g a b d). destruct (ty_of j =? ty_of i)%nat; ring. }
  rewrite Qs_csum.
  rewrite (csum_ext natoms _ (fun j => if (i =? j)%nat then Cmult (Cmult (RtoC (/ sqrt (INR (nx * ny * nz)))) (w j)) (RtoC (INR (nx * ny * nz))) else RtoC 0)).
  - rewrite (csum_delta natoms i (fun j => Cmult (Cmult (RtoC (/ sqrt (INR (nx * ny * nz)))) (w j)) (RtoC (INR (nx * ny * nz)))) Hii).
    unfold w. rewrite Nat.eqb_refl. replace (INR (nx * ny * nz)) with (sqrt (INR (nx * ny * nz)) * sqrt (INR (nx * ny * nz))) at 2 by (apply sqrt_sqrt; lra).
    rewrite RtoC_mult. transitivity (Cmult (Cmult (Cmult (v t i c) (RtoC (sqrt (m i)))) (RtoC (sqrt (INR (nx * ny * nz))))) (Cmult (RtoC (/ sqrt (INR (nx * ny * nz)))) (RtoC (sqrt (INR (nx * ny * nz)))))); [ring|].
    rewrite <- RtoC_mult, Rinv_l by (apply Rgt_not_eq, sqrt_lt_R0; exact HNR). ring.
  - intros j Hj. rewrite Qs_scal. unfold g. destruct (Nat.eqb_spec (ty_of j) (ty_of i)) as [Tj|Tj].
    + unfold P. rewrite (orthogonal inv cell pos nx ny nz types Hx Hy Hz Hi Ht j i Hj Hii Tj), (Nat.eqb_sym i j). destruct (j =? i)%nat; ring.
    + replace (w j) with (RtoC 0) by (unfold w; destruct (Nat.eqb_spec (ty_of j) (ty_of i)); congruence).
      destruct (Nat.eqb_spec i j) as [->|N]; [congruence|ring].
Qed.
Lemma sum_over_fst n f : sum_over n (fun i => fst (f i)) = fst (csum n f).
Proof. induction n as [|n IH]; cbn [sum_over csum]; [reflexivity|]. rewrite IH. reflexivity. Qed.
Lemma sum_over_scal n a f : sum_over n (fun i => f i * a) = sum_over n f * a.
Proof. induction n as [|n IH]; cbn [sum_over]; [ring|]. rewrite IH. ring. Qed.
Lemma sum_over_q_scal a f : sum_over_q nx ny nz (fun q => f q * a) = sum_over_q nx ny nz f * a.
Proof.
  unfold sum_over_q. rewrite <- sum_over_scal. apply sum_over_ext. intros i _. rewrite <- sum_over_scal. apply sum_over_ext. intros j _. rewrite <- sum_over_scal. reflexivity.
Qed.
Lemma sum_over_q_fst f : sum_over_q nx ny nz (fun q => fst (f q)) = fst (Qs nx ny nz (fun a b c => f (qpt nx ny nz a b c))).
Proof.
  unfold sum_over_q, Qs. rewrite <- sum_over_fst. apply sum_over_ext. intros i _. rewrite <- sum_over_fst. apply sum_over_ext. intros j _. rewrite <- sum_over_fst. reflexivity.
Qed.
End Supercell.

(** every real trajectory, at every step, is the superposition of the lattice waves whose amplitudes are the projections the program computes (over sqrt of the
    number of cells): nothing of the motion is missing from the projections onto all the wave vectors of the supercell, and nothing is counted twice *)
Theorem C124_reconstruction : forall inv cell pos nx ny nz types m (v : nat -> nat -> nat -> C) (e : vec -> nat -> nat -> nat -> C) t i c,
  crystal inv cell pos nx ny nz types m -> real_trajectory v -> (forall q, orthonormal (length pos) 3 (length pos * 3) (e q)) ->
  (i < length pos * (nx * ny * nz))%nat -> (c < 3)%nat ->
  v t i c = RtoC (all_waves inv cell pos nx ny nz types m (length pos * 3) e
                    (fun q k => Cdiv (mode_projection inv cell pos nx ny nz types m v e t q k) (RtoC (sqrt (INR (nx * ny * nz))))) i c).
Proof.
  intros inv cell pos nx ny nz types m v e t i c (Hx & Hy & Hz & Hi & Ht & Hm) Hr Ho Hii Hc.
  assert (HN : (0 < nx * ny * nz)%nat) by nia. assert (HNR : 0 < INR (nx * ny * nz)) by (apply lt_0_INR; exact HN).
  assert (Hs : sqrt (INR (nx * ny * nz)) <> 0) by (apply Rgt_not_eq, sqrt_lt_R0; exact HNR).
  assert (Hmi : sqrt (m i) <> 0) by (apply Rgt_not_eq, sqrt_lt_R0, Hm).
  assert (Hty : (nth i types 0 < length pos)%nat).
  { destruct (site_at cell pos nx ny nz types Hx Hy Hz Ht i Hii) as (_ & _ & _ & k0 & _ & _ & _ & _ & Hk0 & Tk & _). rewrite Tk. exact Hk0. }
  assert (E := inverse_transform inv cell pos nx ny nz types m v Hx Hy Hz Hi Ht t i c Hii Hc). cbv zeta in E.
  unfold all_waves.
  rewrite (sum_over_q_ext nx ny nz _ (fun q => fst (Cmult (entry (at_wave_vector inv cell pos nx ny nz types m v q) t (nth i types 0%nat) c) (Cconj (expmi (vdot (get_q_vector inv cell q) (nth i (get_positions cell pos [nx; ny; nz]) vzero))))) * (/ sqrt (INR (nx * ny * nz)) * / sqrt (m i)))).
  - rewrite sum_over_q_scal, (sum_over_q_fst nx ny nz (fun q => Cmult (entry (at_wave_vector inv cell pos nx ny nz types m v q) t (nth i types 0%nat) c) (Cconj (expmi (vdot (get_q_vector inv cell q) (nth i (get_positions cell pos [nx; ny; nz]) vzero)))))), E.
    specialize (Hr t i c). destruct (v t i c) as [a b]. cbn [snd] in Hr. subst b. apply injective_projections; cbn; [field; split; assumption|reflexivity].
  - intros q. rewrite <- (completeness (length pos) 3 (entry (at_wave_vector inv cell pos nx ny nz types m v q)) (e q) t (nth i types 0%nat) c Hty Hc (Ho q)).
    rewrite <- csum_scal_r, <- sum_over_fst, <- sum_over_scal. apply sum_over_ext. intros k _. unfold wave_velocity, mode_projection, site. rewrite turn_expmi.
    set (X := project_onto_phonon _ _ _ _ _ _ _). set (Y := e q k _ c). set (Z := Cconj (expmi _)).
    unfold Cdiv. rewrite <- RtoC_inv by exact Hs. destruct X as [x1 x2], Y as [y1 y2], Z as [z1 z2]. cbn. field. split; assumption.
Qed.
Print Assumptions C124_reconstruction.
(** ... so two real trajectories with the same projections at a step move alike at that step *)
Theorem C124_injective : forall inv cell pos nx ny nz types m (v v' : nat -> nat -> nat -> C) (e : vec -> nat -> nat -> nat -> C) t,
  crystal inv cell pos nx ny nz types m -> real_trajectory v -> real_trajectory v' -> (forall q, orthonormal (length pos) 3 (length pos * 3) (e q)) ->
  (forall a b d k, (a < nx)%nat -> (b < ny)%nat -> (d < nz)%nat -> (k < length pos * 3)%nat ->
     mode_projection inv cell pos nx ny nz types m v e t (V3 (INR a / INR nx) (INR b / INR ny) (INR d / INR nz)) k
     = mode_projection inv cell pos nx ny nz types m v' e t (V3 (INR a / INR nx) (INR b / INR ny) (INR d / INR nz)) k) ->
  forall i c, (i < length pos * (nx * ny * nz))%nat -> (c < 3)%nat -> v t i c = v' t i c.
Proof.
  intros inv cell pos nx ny nz types m v v' e t Hc Hr Hr' Ho Hp i c Hii Hcc.
  rewrite (C124_reconstruction inv cell pos nx ny nz types m v e t i c Hc Hr Ho Hii Hcc), (C124_reconstruction inv cell pos nx ny nz types m v' e t i c Hc Hr' Ho Hii Hcc).
  f_equal. unfold all_waves, sum_over_q. apply sum_over_ext. intros a Ha. apply sum_over_ext. intros b Hb. apply sum_over_ext. intros d Hd. apply sum_over_ext. intros k Hk.
  rewrite (Hp a b d k Ha Hb Hd Hk). reflexivity.
Qed.
Print Assumptions C124_injective.
(** the atoms stand still exactly when every projection is zero *)
Theorem C124_rest : forall inv cell pos nx ny nz types m (v : nat -> nat -> nat -> C) (e : vec -> nat -> nat -> nat -> C) t,
  crystal inv cell pos nx ny nz types m -> real_trajectory v -> (forall q, orthonormal (length pos) 3 (length pos * 3) (e q)) ->
  (forall a b d k, (a < nx)%nat -> (b < ny)%nat -> (d < nz)%nat -> (k < length pos * 3)%nat ->
     mode_projection inv cell pos nx ny nz types m v e t (V3 (INR a / INR nx) (INR b / INR ny) (INR d / INR nz)) k = RtoC 0) <->
  (forall i c, (i < length pos * (nx * ny * nz))%nat -> (c < 3)%nat -> v t i c = RtoC 0).
Proof.
  intros inv cell pos nx ny nz types m v e t Hc Hr Ho.
  assert (Z : forall u : nat -> nat -> nat -> C, (forall i c, (i < length pos * (nx * ny * nz))%nat -> (c < 3)%nat -> u t i c = RtoC 0) ->
     forall q k, (k < length pos * 3)%nat -> mode_projection inv cell pos nx ny nz types m u e t q k = RtoC 0).
  { intros u Hu q k Hk. unfold mode_projection. rewrite phonon_eq by exact Hk. unfold project_onto_phonon2.
    rewrite (csum_ext _ _ (fun _ => RtoC 0)); [apply csum_0|]. intros ty Hty. rewrite (csum_ext _ _ (fun _ => RtoC 0)); [apply csum_0|]. intros c Hcc.
    replace (entry (at_wave_vector inv cell pos nx ny nz types m u q) t ty c) with (RtoC 0); [ring|].
    destruct Hc as (Hx & Hy & Hz & Hi & Ht & Hm). unfold at_wave_vector.
    match goal with |- context [project_onto_wave_vector ?a ?b ?c ?d ?e ?f ?g ?h ?i] => destruct (project_ok a b c d e f g h i) as [A [EA HA]] end.
    { intros j Hj. destruct (site_at cell pos nx ny nz types Hx Hy Hz Ht j Hj) as (? & ? & ? & k1 & _ & _ & _ & _ & Hk1 & Tk1 & _). rewrite Tk1. exact Hk1. }
    rewrite EA. cbn [entry]. rewrite (HA t ty c Hcc). unfold csum_if.
    rewrite (csum_ext _ _ (fun _ => RtoC 0)); [rewrite csum_0; unfold Cdiv; ring|]. intros i Hii. rewrite (Hu i c Hii Hcc). destruct (_ && _)%bool; ring. }
  split.
  - intros Hp. apply (C124_injective inv cell pos nx ny nz types m v (fun _ _ _ => RtoC 0) e t Hc Hr); [intros ? ? ?; reflexivity|exact Ho|].
    intros a b d k Ha Hb Hd Hk. rewrite (Hp a b d k Ha Hb Hd Hk). symmetry. apply Z; [reflexivity|exact Hk].
  - intros Hv a b d k _ _ _ Hk. apply Z; assumption.
Qed.
Print Assumptions C124_rest.
(** two cells of one atom, cartesian polarisations: any real velocities of the two atoms are rebuilt from the projections at the two wave vectors *)
Example C124_nonvacuous : forall f : nat -> nat -> nat -> R,
  let v t i c := RtoC (f t i c) in
  let e (_ : vec) (k _ c : nat) := if (k =? c)%nat then RtoC 1 else RtoC 0 in
  crystal (fun m => m) mid [vzero] 2 1 1 [0; 0]%nat (fun _ => 1) /\ real_trajectory v /\ (forall q, orthonormal 1 3 3 (e q)) /\
  forall t, v t 1%nat 2%nat = RtoC (all_waves (fun m => m) mid [vzero] 2 1 1 [0; 0]%nat (fun _ => 1) 3 e
                    (fun q k => Cdiv (mode_projection (fun m => m) mid [vzero] 2 1 1 [0; 0]%nat (fun _ => 1) v e t q k) (RtoC (sqrt 2))) 1 2).
Proof.
  intros f v e.
  assert (HC : crystal (fun m => m) mid [vzero] 2 1 1 [0; 0]%nat (fun _ => 1)).
  { repeat split; try lia; try reflexivity; try (intros; lra); unfold mmul, mid, vmul, vadd, vscale; cbn; f_equal; apply vec_eq; cbn; ring. }
  assert (Ho : forall q, orthonormal 1 3 3 (e q)).
  { intros q k l Hk Hl. unfold e. cbn [csum]. destruct k as [|[|[|k]]], l as [|[|[|l]]]; try lia; cbn [Nat.eqb]; apply injective_projections; cbn; ring. }
  split; [exact HC|]. split; [intros ? ? ?; reflexivity|]. split; [exact Ho|]. intros t.
  assert (G := C124_reconstruction (fun m => m) mid [vzero] 2 1 1 [0; 0]%nat (fun _ => 1) v e t 1 2 HC (fun _ _ _ => eq_refl) Ho). cbn [length] in G.
  specialize (G ltac:(cbn; lia) ltac:(lia)). exact G.
Qed.
