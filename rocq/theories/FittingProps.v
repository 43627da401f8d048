(** C30, C31: degenerate sets and the assembly of the fit results. *)
From Coq Require Import Lra Lia List.
From Verif Require Export FittingProofs FittingSpec.
Open Scope R_scope.

(** C30, proved for every frequency list and cutoff: every branch appears in a set, no other index does, and every
    set is linked by steps below the cutoff.  Missing from the full claim: "exactly once" (false, see below). *)
Theorem C30_cover_and_linked_partial : forall freqs cutoff n,
  Forall (linked freqs cutoff) (degenerate_sets freqs cutoff n) /\ (forall i, (i < n)%nat <-> In i (concat (degenerate_sets freqs cutoff n))).
Proof. exact sets_general. Qed.
(** C30 in full when the frequencies come in ascending order (as phonopy delivers them), with the sets
    moreover at least the cutoff apart *)
Theorem C30_ascending_partial : forall freqs cutoff n, ascending freqs n ->
  FittingSpec.partition n (degenerate_sets freqs cutoff n) /\ Forall (linked freqs cutoff) (degenerate_sets freqs cutoff n) /\ separated freqs cutoff (degenerate_sets freqs cutoff n).
Proof. exact sets_ascending. Qed.
(** C30 in general is false: for every positive cutoff there are three frequencies whose sets overlap *)
Theorem C30_partition_refuted : forall cutoff, 0 < cutoff -> exists freqs, ~ FittingSpec.partition 3 (degenerate_sets freqs cutoff 3).
Proof. intros c Hc. exists (bad c). exact (not_partition c Hc). Qed.
(** ascending: every branch of a set is fitted on the mean spectrum of that set *)
Theorem C30_degenerate_mean : forall original harmonic ncol cutoff s, ascending harmonic ncol -> In s (degenerate_sets harmonic cutoff ncol) ->
  forall i, In i s -> exists ps, column original harmonic true ncol cutoff i = Some ps /\ forall w, ps w = mean_spectrum original s w.
Proof. exact column_mean. Qed.

(** C31: one entry per column, in column order; entry i depends on column i and its shift only *)
Theorem C31_one_entry_per_branch : forall get_fitting original harmonic use_degeneracy ncol cutoff shift,
  match shift with None => True | Some s => (ncol <= length s)%nat end ->
  exists r, phonon_fitting_analysis get_fitting original harmonic use_degeneracy ncol cutoff shift = Some r /\
  length (positions r) = ncol /\ length (widths r) = ncol /\ length (errors r) = ncol /\ length (dt_Q2 r) = ncol /\
  forall i, (i < ncol)%nat -> exists ps, column original harmonic use_degeneracy ncol cutoff i = Some ps /\
  (nth i (positions r) 0, nth i (widths r) 0, nth i (errors r) 0, nth i (dt_Q2 r) 0) = entry get_fitting ps (shift_of shift i).
Proof. exact analysis_ok. Qed.
(** whether the fit of branch k fails or not, and whatever it reports, the other branches get the same entries *)
Theorem C31_failures_are_local : forall get_fitting get_fitting' original harmonic use_degeneracy ncol cutoff shift r r' k,
  match shift with None => True | Some s => (ncol <= length s)%nat end ->
  phonon_fitting_analysis get_fitting original harmonic use_degeneracy ncol cutoff shift = Some r -> phonon_fitting_analysis get_fitting' original harmonic use_degeneracy ncol cutoff shift = Some r' ->
  (forall i ps, (i < ncol)%nat -> i <> k -> column original harmonic use_degeneracy ncol cutoff i = Some ps -> get_fitting ps = get_fitting' ps) ->
  forall i, (i < ncol)%nat -> i <> k -> nth i (positions r) 0 = nth i (positions r') 0 /\ nth i (widths r) 0 = nth i (widths r') 0 /\ nth i (errors r) 0 = nth i (errors r') 0 /\ nth i (dt_Q2 r) 0 = nth i (dt_Q2 r') 0.
Proof. exact analysis_local. Qed.

Print Assumptions C30_cover_and_linked_partial.
Print Assumptions C30_ascending_partial.
Print Assumptions C30_partition_refuted.
Print Assumptions C30_degenerate_mean.
Print Assumptions C31_one_entry_per_branch.
Print Assumptions C31_failures_are_local.

(** ascending holds of a list with a degenerate pair, and the two are put together *)
Example C30_nonvacuous : let f := fun i : nat => match i with O => 1 | S O => 1 | _ => 5 end in
  ascending f 3 /\ degenerate_sets f (1/10) 3 = [[0; 1]; [2]]%nat.
Proof.
  cbv zeta. set (f := fun i : nat => match i with O => 1 | S O => 1 | _ => 5 end).
  split.
  - intros i j [A B]. unfold f. destruct i as [|[|[|]]], j as [|[|[|]]]; try lia; cbn; lra.
  - assert (N01 : Rltb (Rabs (f 0%nat - f 1%nat)) (1/10) = true) by (apply Rltb_true; cbn; rewrite Rminus_diag_eq, Rabs_R0 by reflexivity; lra).
    assert (N02 : Rltb (Rabs (f 0%nat - f 2%nat)) (1/10) = false) by (clear; destruct (Rltb (Rabs (f 0%nat - f 2%nat)) (1/10)) eqn:E; [|reflexivity]; apply Rltb_true in E; cbn in E; rewrite Rabs_left in E by lra; lra).
    assert (N12 : Rltb (Rabs (f 1%nat - f 2%nat)) (1/10) = false) by (clear; destruct (Rltb (Rabs (f 1%nat - f 2%nat)) (1/10)) eqn:E; [|reflexivity]; apply Rltb_true in E; cbn in E; rewrite Rabs_left in E by lra; lra).
    unfold degenerate_sets. cbn [seq fold_left]. unfold set_step at 3. cbn [existsb Nat.add Nat.sub seq fold_left]. unfold join_step at 2, near. cbn [existsb]. rewrite N01. cbn [orb].
    unfold join_step at 1, near. cbn [existsb app]. rewrite N02, N12. cbn [orb app].
    unfold set_step at 2. cbn [existsb Nat.eqb orb]. unfold set_step. cbn [existsb Nat.eqb orb Nat.add Nat.sub seq fold_left]. reflexivity.
Qed.
(** three branches, the fit of the second fails: the first and third keep their own results *)
Example C31_nonvacuous :
  let gf := fun p : nat -> R => if Rltb (p 0%nat) 0 then None else Some (MkFit (p 0%nat) 1 2 4 8) in
  let orig := fun w i : nat => match i with O => 3 | S O => -1 | _ => 7 end in
  exists r, phonon_fitting_analysis gf orig (fun _ => 0) false 3 1 (Some [1; 1; 1]) = Some r /\ positions r = [3 + 1; 0; 7 + 1] /\ widths r = [2; 0; 2].
Proof.
  cbv zeta. unfold phonon_fitting_analysis. cbn [seq fold_left]. unfold analyse, column, append. cbn [nth_error option_map positions widths errors dt_Q2 peak_position area width maximum global_error].
  assert (L : forall x, 0 <= x -> Rltb x 0 = false) by (intros x Hx; destruct (Rltb x 0) eqn:E; [apply Rltb_true in E; lra|reflexivity]).
  rewrite (L 3) by lra. assert (E1 : Rltb (-1) 0 = true) by (apply Rltb_true; lra). rewrite E1. cbn [nth_error option_map positions widths errors dt_Q2 peak_position area width maximum global_error]. rewrite (L 7) by lra.
  cbn [nth_error option_map positions widths errors dt_Q2 peak_position area width maximum global_error app]. eexists. split; [reflexivity|]. split; reflexivity.
Qed.
