(** C122: projecting an arbitrary superposition of the lattice waves of a supercell (projection.py:7-78, C28/C29) onto one of its wave vectors and modes
    gives the amplitude of that mode alone.  Only models of other files are used: SupercellModel, PhonopyLinkModel (get_q_vector), ProjectionModel. *)
From Verif Require Import Base SupercellModel SupercellSpec SupercellProofs PhonopyLinkModel PhonopyLinkSpec PhonopyLinkProofs PhonopyLinkProps ProjectionModel ProjectionSpec ProjectionProofs ProjectionSymmetryProps RoundTripProps ModeExpansionProofs.
From Verif Require HarmonicSpec.
From Coq Require Import Lra Lia Permutation.
From Coquelicot Require Import Complex.
Open Scope R_scope.

(** ---------- specification ---------- *)
(** e^{i x} *)
Definition turn (x : R) : C := (cos x, sin x).
(** velocity (component c, atom i) of the wave of mode k at the wave vector q with the complex amplitude s: Re (s e(q,k) e^{i q.R_i}) / sqrt m_i *)
Definition wave_velocity (inv : mat -> mat) (cell : mat) (pos : list vec) (nx ny nz : nat) (types : list nat) (m : nat -> R) (q : vec) (e : nat -> nat -> C) (s : C) (i c : nat) : R :=
  fst (Cmult (Cmult s (e (nth i types 0%nat) c)) (turn (vdot (get_q_vector inv cell q) (site cell pos nx ny nz i)))) / sqrt (m i).
(** velocity of the superposition of all the waves: amplitude s q k for the mode k at the wave vector Q q *)
Definition superposition (inv : mat -> mat) (cell : mat) (pos : list vec) (nx ny nz : nat) (types : list nat) (m : nat -> R) (nq nf : nat) (Q : nat -> vec)
    (ev : nat -> nat -> nat -> nat -> C) (s : nat -> nat -> C) (i c : nat) : R :=
  HarmonicSpec.Sum nf (fun k => HarmonicSpec.Sum nq (fun q => wave_velocity inv cell pos nx ny nz types m (Q q) (ev q k) (s q k) i c)).
(** the eigenvectors at -q are the complex conjugates of those at q (up to the lattice vector that separates the two) *)
Definition conjugate_pair (inv : mat -> mat) (cell : mat) (pos : list vec) (nf : nat) (Q : nat -> vec) (ev : nat -> nat -> nat -> nat -> C) (j j' : nat) : Prop :=
  integral (vadd (Q j) (Q j')) /\
  forall k ty c, (k < nf)%nat -> (ty < length pos)%nat -> (c < 3)%nat -> ev j' k ty c = Cmult (Cconj (ev j k ty c)) (cell_phase inv cell pos (vadd (Q j) (Q j')) ty).

(** ---------- proofs ---------- *)
Lemma turn_expmi x : turn x = Cconj (expmi x).
Proof. unfold turn, expmi, Cconj. cbn. f_equal. ring. Qed.
Lemma re_part z : RtoC (fst z) = Cmult mih (Cminus (Cmult Ci z) (Cconj (Cmult Ci z))).
Proof. rewrite im_part. f_equal. destruct z as [a b]. unfold Ci. cbn. ring. Qed.

(** every mode of every superposition: the projection is the amplitude of the wave plus the conjugate amplitude of its partner at -q (the two describe the same
    pair of waves, and the velocities are real), times sqrt(N)/2; nothing of the other wave vectors or of the other modes is left *)
Theorem C122_mode_amplitude : forall inv cell pos nx ny nz types m nq nf Q ev s j j' l v vc t,
  crystal inv cell pos nx ny nz types m -> wave_vectors nx ny nz nq Q -> (j < nq)%nat -> (j' < nq)%nat -> (l < nf)%nat ->
  conjugate_pair inv cell pos nf Q ev j j' -> orthonormal (length pos) 3 nf (ev j) ->
  (forall i c, (i < length pos * (nx * ny * nz))%nat -> (c < 3)%nat -> v t i c = RtoC (superposition inv cell pos nx ny nz types m nq nf Q ev s i c)) ->
  at_wave_vector inv cell pos nx ny nz types m v (Q j) = Some vc ->
  project_onto_phonon (length pos) 3 nf vc (ev j) t l = Cmult (RtoC (sqrt (INR (nx * ny * nz)) / 2)) (Cplus (s j l) (Cconj (s j' l))).
Proof.
  intros inv cell pos nx ny nz types m nq nf Q ev s j j' l v vc t (Hx & Hy & Hz & Hi & Ht & Hm) (HN & HQ & HD) Hj Hj' Hl (Hjj & He) Ho Hv EA.
  rewrite (amplitudes_of_mode inv cell pos nx ny nz types Hx Hy Hz Hi Ht m nq nf Q ev (fun q k => Cmult Ci (s q k)) HQ HD j j' Hj Hj' Hjj v t l vc Hl Ho).
  - rewrite (csum_ext nf _ (fun k => if (l =? k)%nat then Cconj (Cmult Ci (s j' k)) else RtoC 0)).
    2:{ intros k Hk. rewrite (csum_ext (length pos) _ (fun ty => csum 3 (fun c => Cmult (ev j k ty c) (Cconj (ev j l ty c))))).
      - rewrite (Ho k l Hk Hl), (Nat.eqb_sym l k). destruct (k =? l)%nat; ring.
      - intros ty Hty. apply csum_ext. intros c Hc. rewrite (He k ty c Hk Hty Hc). unfold cell_phase, shift_phase. rewrite Cmult_conj', Cconj_conj'.
        set (ph := expmi _). assert (U : Cmult (Cconj ph) ph = RtoC 1). { unfold ph. rewrite expmi_conj, <- expmi_add, Rplus_opp_l. apply expmi_0. }
        transitivity (Cmult (Cmult (Cmult (Cconj ph) ph) (ev j k ty c)) (Cconj (ev j l ty c))); [ring|rewrite U; ring]. }
    rewrite (csum_delta nf l (fun k => Cconj (Cmult Ci (s j' k))) Hl).
    destruct (s j l) as [a b], (s j' l) as [a' b']. unfold mih, Ci. apply injective_projections; cbn; field.
  - intros i c Hii Hc. rewrite (Hv i c Hii Hc), <- RtoC_mult. unfold superposition.
    assert (Hs : sqrt (m i) <> 0) by (apply Rgt_not_eq, sqrt_lt_R0, Hm).
    rewrite RtoC_mult, Sum_csum, <- csum_scal_r. apply csum_ext. intros k _. rewrite Sum_csum, <- csum_scal_r. apply csum_ext. intros q _.
    rewrite <- RtoC_mult. unfold wave_velocity. fold (site cell pos nx ny nz i). rewrite turn_expmi.
    set (E := expmi _). set (e := ev q k _ c).
    replace (fst (Cmult (Cmult (s q k) e) (Cconj E)) / sqrt (m i) * sqrt (m i)) with (fst (Cmult (Cmult (s q k) e) (Cconj E))) by (field; exact Hs).
    rewrite re_part. f_equal. rewrite !Cmult_conj', !Cconj_conj'. ring.
  - exact EA.
Qed.
Print Assumptions C122_mode_amplitude.
(** a mode that is in no wave of the superposition shows nothing, whatever the other modes and wave vectors carry *)
Theorem C122_silent_mode : forall inv cell pos nx ny nz types m nq nf Q ev s j j' l v vc t,
  crystal inv cell pos nx ny nz types m -> wave_vectors nx ny nz nq Q -> (j < nq)%nat -> (j' < nq)%nat -> (l < nf)%nat ->
  conjugate_pair inv cell pos nf Q ev j j' -> orthonormal (length pos) 3 nf (ev j) -> s j l = RtoC 0 -> s j' l = RtoC 0 ->
  (forall i c, (i < length pos * (nx * ny * nz))%nat -> (c < 3)%nat -> v t i c = RtoC (superposition inv cell pos nx ny nz types m nq nf Q ev s i c)) ->
  at_wave_vector inv cell pos nx ny nz types m v (Q j) = Some vc ->
  project_onto_phonon (length pos) 3 nf vc (ev j) t l = RtoC 0.
Proof.
  intros inv cell pos nx ny nz types m nq nf Q ev s j j' l v vc t Hc HW Hj Hj' Hl He Ho S1 S2 Hv EA.
  rewrite (C122_mode_amplitude inv cell pos nx ny nz types m nq nf Q ev s j j' l v vc t Hc HW Hj Hj' Hl He Ho Hv EA), S1, S2.
  apply injective_projections; cbn; ring.
Qed.
Print Assumptions C122_silent_mode.
(** the projection is always defined *)
Lemma projection_defined : forall inv cell pos nx ny nz types m v q, crystal inv cell pos nx ny nz types m -> exists vc, at_wave_vector inv cell pos nx ny nz types m v q = Some vc.
Proof.
  intros inv cell pos nx ny nz types m v q (Hx & Hy & Hz & Hi & Ht & Hm). unfold at_wave_vector.
  match goal with |- exists vc, project_onto_wave_vector ?a ?b ?c ?d ?e ?f ?g ?h ?i = Some vc => destruct (project_ok a b c d e f g h i) as [vc [E _]] end.
  - intros i Hii. destruct (site_at cell pos nx ny nz types Hx Hy Hz Ht i Hii) as (_ & _ & _ & k0 & _ & _ & _ & _ & Hk0 & Tk & _). rewrite Tk. exact Hk0.
  - exists vc. exact E.
Qed.
(** two superpositions with the same velocities have the same amplitudes (of each pair of waves): the projections lose nothing *)
Theorem C122_amplitudes_unique : forall inv cell pos nx ny nz types m nq nf Q ev s s' j j' l,
  crystal inv cell pos nx ny nz types m -> wave_vectors nx ny nz nq Q -> (j < nq)%nat -> (j' < nq)%nat -> (l < nf)%nat ->
  conjugate_pair inv cell pos nf Q ev j j' -> orthonormal (length pos) 3 nf (ev j) ->
  (forall i c, (i < length pos * (nx * ny * nz))%nat -> (c < 3)%nat ->
     superposition inv cell pos nx ny nz types m nq nf Q ev s i c = superposition inv cell pos nx ny nz types m nq nf Q ev s' i c) ->
  Cplus (s j l) (Cconj (s j' l)) = Cplus (s' j l) (Cconj (s' j' l)).
Proof.
  intros inv cell pos nx ny nz types m nq nf Q ev s s' j j' l Hc HW Hj Hj' Hl He Ho Hs.
  set (v (_ : nat) i c := RtoC (superposition inv cell pos nx ny nz types m nq nf Q ev s i c)).
  destruct (projection_defined inv cell pos nx ny nz types m v (Q j) Hc) as [vc EA].
  assert (E1 := C122_mode_amplitude inv cell pos nx ny nz types m nq nf Q ev s j j' l v vc 0 Hc HW Hj Hj' Hl He Ho (fun i c _ _ => eq_refl) EA).
  assert (E2 := C122_mode_amplitude inv cell pos nx ny nz types m nq nf Q ev s' j j' l v vc 0 Hc HW Hj Hj' Hl He Ho (fun i c Hi H3 => f_equal RtoC (Hs i c Hi H3)) EA).
  rewrite E1 in E2. destruct Hc as (Hx & Hy & Hz & _).
  assert (Hp : 0 < sqrt (INR (nx * ny * nz))) by (apply sqrt_lt_R0, lt_0_INR; nia).
  set (r := sqrt (INR (nx * ny * nz)) / 2) in *. assert (Hr : r <> 0) by (unfold r; lra).
  assert (U : forall a b, Cmult (RtoC r) a = Cmult (RtoC r) b -> a = b).
  { intros [a1 a2] [b1 b2] H. injection H as H1 H2. f_equal; apply (Rmult_eq_reg_l r); try exact Hr; lra. }
  apply U. exact E2.
Qed.
Print Assumptions C122_amplitudes_unique.
(** zone boundary modes of a cubic crystal of one atom per cell in a 2 x 1 x 1 supercell, arbitrary amplitudes *)
Example C122_nonvacuous : forall s : nat -> nat -> C,
  let Q i := match i with O => vzero | _ => V3 (1/2) 0 0 end in
  let ev (_ k _ c : nat) := if (k =? c)%nat then RtoC 1 else RtoC 0 in
  let v (_ : nat) i c := RtoC (superposition (fun m => m) mid [vzero] 2 1 1 [0; 0]%nat (fun _ => 1) 2 3 Q ev s i c) in
  exists vc, at_wave_vector (fun m => m) mid [vzero] 2 1 1 [0; 0]%nat (fun _ => 1) v (Q 1%nat) = Some vc /\
  forall t, project_onto_phonon 1 3 3 vc (ev 1%nat) t 2 = RtoC (sqrt 2 * fst (s 1%nat 2%nat)).
Proof.
  intros s Q ev v.
  assert (HC : crystal (fun m => m) mid [vzero] 2 1 1 [0; 0]%nat (fun _ => 1)).
  { repeat split; try lia; try reflexivity; try (intros; lra); unfold mmul, mid, vmul, vadd, vscale; cbn; f_equal; apply vec_eq; cbn; ring. }
  destruct (projection_defined _ _ _ _ _ _ _ _ v (Q 1%nat) HC) as [vc E]. exists vc. split; [exact E|]. intros t.
  assert (G := C122_mode_amplitude (fun m => m) mid [vzero] 2 1 1 [0; 0]%nat (fun _ => 1) 2 3 Q ev s 1 1 2 v vc t HC).
  cbn [length] in G. rewrite G; clear G; try lia; try exact E.
  - destruct (s 1%nat 2%nat) as [a b]. replace (2 * 1 * 1)%nat with 2%nat by reflexivity. replace (INR 2) with 2 by (cbn; ring). apply injective_projections; cbn [fst snd Cmult Cplus Cconj RtoC]; field.
  - repeat split; [intros i _; destruct i as [|i]; [exists 0%Z, 0%Z, 0%Z|exists 1%Z, 0%Z, 0%Z]; unfold Q, vzero; cbn; repeat split; lra|].
    intros i k Hi Hk (a & b & c & X). apply (f_equal vx) in X. cbn in X.
    destruct i as [|[|i]], k as [|[|k]]; try lia; exfalso; unfold Q, vzero in X; cbn in X.
    + assert (Y : IZR (2 * a + 1) = 0) by (rewrite plus_IZR, mult_IZR; lra). apply eq_IZR in Y. lia.
    + assert (Y : IZR (2 * a - 1) = 0) by (rewrite minus_IZR, mult_IZR; lra). apply eq_IZR in Y. lia.
  - split.
    + exists 1%Z, 0%Z, 0%Z. unfold Q. apply vec_eq; cbn; lra.
    + intros k ty c Hk Hty Hc. unfold cell_phase. destruct ty; [|cbn in Hty; lia]. cbn [nth]. replace (vdot _ vzero) with 0 by (unfold vdot, vzero; cbn; ring). rewrite expmi_0. unfold ev. destruct (k =? c)%nat; apply injective_projections; cbn; ring.
  - intros k k' Hk Hk'. destruct k as [|[|[|k]]], k' as [|[|[|k']]]; try lia; unfold ev; cbn; apply injective_projections; cbn; ring.
  - intros i c _ _. reflexivity.
Qed.
