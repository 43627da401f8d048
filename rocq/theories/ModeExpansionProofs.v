(** C122: projecting a superposition of waves; the proof follows RoundTripProps with arbitrary amplitudes. *)
From Verif Require Import Base SupercellModel SupercellSpec SupercellProofs PhonopyLinkModel PhonopyLinkSpec PhonopyLinkProofs PhonopyLinkProps ProjectionModel ProjectionSpec ProjectionProofs ProjectionSymmetryProps RoundTripProps.
From Coq Require Import Lra Lia Permutation.
From Coquelicot Require Import Complex.
Open Scope R_scope.

Section Modes.
Context (inv : mat -> mat) (cell : mat) (pos : list vec) (nx ny nz : nat) (types : list nat).
Context (Hx : (nx > 0)%nat) (Hy : (ny > 0)%nat) (Hz : (nz > 0)%nat) (Hi : is_inverse (inv cell) cell)
  (Ht : get_attribute (length pos) (seq 0 (length pos)) [nx; ny; nz] = Some types).
Let natoms := (length pos * (nx * ny * nz))%nat.
Let P (i : nat) : vec := nth i (get_positions cell pos [nx; ny; nz]) vzero.
Let ty_of (i : nat) : nat := nth i types 0%nat.
Let gq := get_q_vector inv cell.
Context (m : nat -> R) (nq nf : nat) (Q : nat -> vec) (ev : nat -> nat -> nat -> nat -> C) (amp : nat -> nat -> C).
Context (HQ : forall i, (i < nq)%nat -> commensurate nx ny nz (Q i)) (HD : forall i j, (i < nq)%nat -> (j < nq)%nat -> integral (vsub (Q i) (Q j)) -> i = j).
Context (j j' : nat) (Hj : (j < nq)%nat) (Hj' : (j' < nq)%nat) (Hjj : integral (vadd (Q j) (Q j'))).
Notation shift_phase := (RoundTripProps.shift_phase inv cell pos Q j j').
Lemma amplitudes_at_q v t ty c (A : nat -> nat -> nat -> C) : (ty < length pos)%nat -> (c < 3)%nat ->
  (forall i, (i < natoms)%nat -> Cmult (v t i c) (RtoC (sqrt (m i))) = csum nf (fun k => csum nq (fun q => Cmult mih (Cminus (Cmult (Cmult (amp q k) (ev q k (ty_of i) c)) (Cconj (expmi (vdot (gq (Q q)) (P i))))) (Cmult (Cconj (Cmult (amp q k) (ev q k (ty_of i) c))) (expmi (vdot (gq (Q q)) (P i)))))))) ->
  project_onto_wave_vector natoms (length pos) 3 ty_of (fun i => PhonopyLinkProps.comp (P i)) (PhonopyLinkProps.comp (gq (Q j))) v m (-1) = Some A ->
  A t ty c = Cmult (RtoC (sqrt (INR (nx * ny * nz)))) (Cmult mih (Cminus (csum nf (fun k => Cmult (amp j k) (ev j k ty c)))
                                                                         (Cmult (csum nf (fun k => Cconj (Cmult (amp j' k) (ev j' k ty c)))) (shift_phase ty)))).
Proof.
  intros Hty Hc Hv EA.
  destruct (project_ok natoms (length pos) 3 ty_of (fun i => PhonopyLinkProps.comp (P i)) (PhonopyLinkProps.comp (gq (Q j))) v m (-1)) as [A' [EA' HA]].
  { intros i Hii. destruct (site_at cell pos nx ny nz types Hx Hy Hz Ht i Hii) as (_ & _ & _ & k0 & _ & _ & _ & _ & Hk0 & Tk & _). change (ty_of i) with (nth i types 0%nat). rewrite Tk. exact Hk0. }
  rewrite EA in EA'. injection EA' as <-. rewrite (HA t ty c Hc).
  assert (HN : (0 < nx * ny * nz)%nat) by nia. assert (HNR : 0 < INR (nx * ny * nz)) by (apply lt_0_INR; exact HN).
  assert (EN : INR natoms / INR (length pos) = INR (nx * ny * nz)). { unfold natoms. rewrite mult_INR. field. apply not_0_INR. lia. }
  rewrite EN.
  assert (X : csum_if natoms (fun i => (ty_of i =? ty)%nat && kept ty_of (-1) i)%bool (fun i => Cmult (Cmult (v t i c) (RtoC (sqrt (m i)))) (expmi (rdot 3 (PhonopyLinkProps.comp (gq (Q j))) (PhonopyLinkProps.comp (P i)))))
    = Cmult (RtoC (INR (nx * ny * nz))) (Cmult mih (Cminus (csum nf (fun k => Cmult (amp j k) (ev j k ty c))) (Cmult (csum nf (fun k => Cconj (Cmult (amp j' k) (ev j' k ty c)))) (shift_phase ty))))).
  { unfold csum_if.
    rewrite (csum_ext natoms _ (fun i => csum nf (fun k => csum nq (fun q => if (ty_of i =? ty)%nat then Cmult mih (Cminus (Cmult (Cmult (amp q k) (ev q k ty c)) (expmi (vdot (gq (vsub (Q j) (Q q))) (P i))))
         (Cmult (Cconj (Cmult (amp q k) (ev q k ty c))) (expmi (vdot (gq (vadd (Q j) (Q q))) (P i))))) else RtoC 0)))).
    2:{ intros i Hii. unfold kept. cbn [Z.leb Z.compare orb]. rewrite andb_true_r, rdot_comp. destruct (Nat.eqb_spec (ty_of i) ty) as [Ei|Ei].
        - rewrite (Hv i Hii), Ei. rewrite <- csum_scal_r. apply csum_ext. intros k _. rewrite <- csum_scal_r. apply csum_ext. intros q _.
          unfold gq. rewrite gq_sub, gq_add, vdot_vadd, vdot_vsub. fold gq. unfold Rminus. rewrite !expmi_add, <- expmi_conj. ring.
        - symmetry. rewrite (csum_ext nf _ (fun _ => RtoC 0)) by (intros; apply csum_0). apply csum_0. }
    rewrite csum_swap. rewrite (csum_ext nf _ (fun k => Cmult (RtoC (INR (nx * ny * nz))) (Cmult mih (Cminus (Cmult (amp j k) (ev j k ty c)) (Cmult (Cconj (Cmult (amp j' k) (ev j' k ty c))) (shift_phase ty)))))).
    2:{ intros k _. rewrite csum_swap.
        rewrite (csum_ext nq _ (fun q => Cplus (if (j =? q)%nat then Cmult (RtoC (INR (nx * ny * nz))) (Cmult mih (Cmult (amp q k) (ev q k ty c))) else RtoC 0)
                                             (if (j' =? q)%nat then Cmult (RtoC (INR (nx * ny * nz))) (Cmult mih (Copp (Cmult (Cconj (Cmult (amp q k) (ev q k ty c))) (shift_phase ty)))) else RtoC 0))).
        - rewrite csum_plus. rewrite (csum_delta nq j (fun q => Cmult (RtoC (INR (nx * ny * nz))) (Cmult mih (Cmult (amp q k) (ev q k ty c)))) Hj).
          rewrite (csum_delta nq j' (fun q => Cmult (RtoC (INR (nx * ny * nz))) (Cmult mih (Copp (Cmult (Cconj (Cmult (amp q k) (ev q k ty c))) (shift_phase ty))))) Hj'). unfold Cminus. ring.
        - intros q Hq. set (a := Cmult (amp q k) (ev q k ty c)).
          rewrite (csum_ext natoms _ (fun i => Cplus (Cmult (Cmult mih a) (if (ty_of i =? ty)%nat then expmi (vdot (gq (vsub (Q j) (Q q))) (P i)) else RtoC 0))
                                                    (Cmult (Cmult mih (Copp (Cconj a))) (if (ty_of i =? ty)%nat then expmi (vdot (gq (vadd (Q j) (Q q))) (P i)) else RtoC 0)))).
          2:{ intros i _. destruct (ty_of i =? ty)%nat; unfold Cminus; ring. }
          rewrite csum_plus, !csum_scal. f_equal.
          + destruct (Nat.eqb_spec j q) as [<-|N].
            * assert (I : integral (vsub (Q j) (Q j))) by (exists 0%Z, 0%Z, 0%Z; apply vec_eq; cbn [vsub vx vy vz]; ring).
              rewrite (lattice_in inv cell pos nx ny nz types Hx Hy Hz Hi Ht (vsub (Q j) (Q j)) ty Hty I : csum natoms (fun i => if (ty_of i =? ty)%nat then expmi (vdot (gq (vsub (Q j) (Q j))) (P i)) else RtoC 0) = _).
              rewrite gq_sub, vdot_vsub, Rminus_diag_eq, expmi_0 by reflexivity. ring.
            * rewrite (lattice_out inv cell pos nx ny nz types Hx Hy Hz Hi Ht (vsub (Q j) (Q q)) ty Hty : _ -> _ -> csum natoms (fun i => if (ty_of i =? ty)%nat then expmi (vdot (gq (vsub (Q j) (Q q))) (P i)) else RtoC 0) = _); [ring|apply (comm_sub nx ny nz); apply HQ; assumption|].
              intros I. apply N. apply HD; assumption.
          + destruct (Nat.eqb_spec j' q) as [<-|N].
            * rewrite (lattice_in inv cell pos nx ny nz types Hx Hy Hz Hi Ht (vadd (Q j) (Q j')) ty Hty Hjj : csum natoms (fun i => if (ty_of i =? ty)%nat then expmi (vdot (gq (vadd (Q j) (Q j'))) (P i)) else RtoC 0) = _).
              unfold shift_phase, gq. ring.
            * rewrite (lattice_out inv cell pos nx ny nz types Hx Hy Hz Hi Ht (vadd (Q j) (Q q)) ty Hty : _ -> _ -> csum natoms (fun i => if (ty_of i =? ty)%nat then expmi (vdot (gq (vadd (Q j) (Q q))) (P i)) else RtoC 0) = _); [ring|apply (comm_add nx ny nz); apply HQ; assumption|].
              intros I. apply N. apply HD; try assumption. exact (integral_diff _ _ _ Hjj I). }
    rewrite !csum_scal. f_equal. f_equal. unfold Cminus. rewrite csum_plus. f_equal.
    rewrite <- csum_scal_r. exact (csum_opp nf (fun k => Cmult (Cconj (Cmult (amp j' k) (ev j' k ty c))) (shift_phase ty))). }
  rewrite X. assert (Es : sqrt (INR (nx * ny * nz)) * sqrt (INR (nx * ny * nz)) = INR (nx * ny * nz)) by (apply sqrt_sqrt; lra).
  assert (Hs : sqrt (INR (nx * ny * nz)) <> 0) by (apply Rgt_not_eq, sqrt_lt_R0; exact HNR).
  rewrite <- Es at 1. rewrite RtoC_mult. unfold Cdiv. rewrite <- RtoC_inv by exact Hs.
  match goal with |- Cmult (Cmult (Cmult (RtoC ?s) (RtoC ?s)) ?Y) (RtoC (/ ?s)) = _ => replace (Cmult (Cmult (Cmult (RtoC s) (RtoC s)) Y) (RtoC (/ s))) with (Cmult (Cmult (RtoC s) Y) (Cmult (RtoC s) (RtoC (/ s)))) by ring end.
  rewrite <- RtoC_mult, Rinv_r by exact Hs. ring.
Qed.
(** projection on mode l of wave vector j *)
Lemma amplitudes_of_mode v t l (A : nat -> nat -> nat -> C) : (l < nf)%nat ->
  orthonormal (length pos) 3 nf (ev j) ->
  (forall i c, (i < natoms)%nat -> (c < 3)%nat -> Cmult (v t i c) (RtoC (sqrt (m i))) = csum nf (fun k => csum nq (fun q => Cmult mih (Cminus (Cmult (Cmult (amp q k) (ev q k (ty_of i) c)) (Cconj (expmi (vdot (gq (Q q)) (P i))))) (Cmult (Cconj (Cmult (amp q k) (ev q k (ty_of i) c))) (expmi (vdot (gq (Q q)) (P i)))))))) ->
  project_onto_wave_vector natoms (length pos) 3 ty_of (fun i => PhonopyLinkProps.comp (P i)) (PhonopyLinkProps.comp (gq (Q j))) v m (-1) = Some A ->
  project_onto_phonon (length pos) 3 nf A (ev j) t l =
  Cmult (RtoC (sqrt (INR (nx * ny * nz)))) (Cmult mih (Cminus (amp j l)
     (csum nf (fun k => Cmult (Cconj (amp j' k)) (csum (length pos) (fun ty => csum 3 (fun c => Cmult (Cmult (Cconj (ev j' k ty c)) (shift_phase ty)) (Cconj (ev j l ty c))))))))).
Proof.
  intros Hl Ho Hv EA. rewrite phonon_eq by exact Hl. unfold project_onto_phonon2.
  rewrite (csum_ext (length pos) _ (fun ty => csum 3 (fun c => Cmult (RtoC (sqrt (INR (nx * ny * nz)))) (Cmult mih (Cminus (csum nf (fun k => Cmult (amp j k) (Cmult (ev j k ty c) (Cconj (ev j l ty c)))))
      (csum nf (fun k => Cmult (Cconj (amp j' k)) (Cmult (Cmult (Cconj (ev j' k ty c)) (shift_phase ty)) (Cconj (ev j l ty c)))))))))).
  2:{ intros ty Hty. apply csum_ext. intros c Hc. rewrite (amplitudes_at_q v t ty c A Hty Hc (fun i Hi => Hv i c Hi Hc) EA).
      rewrite (csum_ext nf (fun k => Cmult (amp j k) (Cmult (ev j k ty c) (Cconj (ev j l ty c)))) (fun k => Cmult (Cmult (amp j k) (ev j k ty c)) (Cconj (ev j l ty c)))) by (intros; ring).
      rewrite (csum_ext nf (fun k => Cmult (Cconj (amp j' k)) (Cmult (Cmult (Cconj (ev j' k ty c)) (shift_phase ty)) (Cconj (ev j l ty c)))) (fun k => Cmult (Cconj (Cmult (amp j' k) (ev j' k ty c))) (Cmult (shift_phase ty) (Cconj (ev j l ty c))))) by (intros; rewrite Cmult_conj'; ring).
      rewrite !csum_scal_r. ring. }
  rewrite (csum_ext (length pos) _ (fun ty => Cmult (RtoC (sqrt (INR (nx * ny * nz)))) (Cmult mih (csum 3 (fun c => Cminus (csum nf (fun k => Cmult (amp j k) (Cmult (ev j k ty c) (Cconj (ev j l ty c)))))
      (csum nf (fun k => Cmult (Cconj (amp j' k)) (Cmult (Cmult (Cconj (ev j' k ty c)) (shift_phase ty)) (Cconj (ev j l ty c)))))))))).
  2:{ intros ty _. rewrite !csum_scal. reflexivity. }
  rewrite !csum_scal. f_equal. f_equal.
  rewrite (csum_ext (length pos) _ (fun ty => Cplus (csum nf (fun k => csum 3 (fun c => Cmult (amp j k) (Cmult (ev j k ty c) (Cconj (ev j l ty c)))))) (csum nf (fun k => csum 3 (fun c => Copp (Cmult (Cconj (amp j' k)) (Cmult (Cmult (Cconj (ev j' k ty c)) (shift_phase ty)) (Cconj (ev j l ty c))))))))).
  2:{ intros ty _. unfold Cminus. rewrite csum_plus, csum_opp. rewrite (csum_swap 3 nf), (csum_swap 3 nf). f_equal. rewrite <- csum_opp. apply csum_ext. intros k _. rewrite csum_opp. reflexivity. }
  rewrite csum_plus. unfold Cminus. rewrite (csum_swap (length pos) nf), (csum_swap (length pos) nf). f_equal.
  - rewrite (csum_ext nf _ (fun k => if (l =? k)%nat then amp j k else RtoC 0)); [exact (csum_delta nf l (fun k => amp j k) Hl)|].
    intros k Hk. rewrite (csum_ext (length pos) _ (fun ty => Cmult (amp j k) (csum 3 (fun c => Cmult (ev j k ty c) (Cconj (ev j l ty c)))))) by (intros; apply csum_scal).
    rewrite csum_scal, (Ho k l Hk Hl). rewrite (Nat.eqb_sym l k). destruct (k =? l)%nat; ring.
  - rewrite <- csum_opp. apply csum_ext. intros k _. rewrite <- csum_scal, <- csum_opp. apply csum_ext. intros ty _. rewrite <- csum_scal, <- csum_opp. reflexivity.
Qed.
End Modes.
