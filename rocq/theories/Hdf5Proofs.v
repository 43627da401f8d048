From Verif Require Import Hdf5Model Hdf5Spec.
From Coq Require Import List.
Open Scope nat_scope.
Section P.
Context {row : Type}.
Notation dataset := (dataset row).
Notation h5file := (h5file row).
Lemma bound_nat n i : bound n (Z.of_nat i) = min i n.
Proof. unfold bound. destruct (Z.ltb_spec (Z.of_nat i) 0) as [F|F]; [lia|]. rewrite Nat2Z.id. reflexivity. Qed.
Lemma slice_nat (a : nat) (l : dataset) : slice (Z.of_nat a) None l = skipn a l.
Proof.
  unfold slice. rewrite bound_nat. destruct (Nat.le_gt_cases a (length l)) as [F|F].
  - rewrite Nat.min_l by exact F. rewrite firstn_all2; [reflexivity|]. rewrite skipn_length. lia.
  - rewrite Nat.min_r by lia. rewrite !skipn_all2 by lia. apply firstn_nil.
Qed.
Lemma slice_window (a b : nat) (l : dataset) : slice (Z.of_nat a) (Some (Z.of_nat b)) l = firstn (b - a) (skipn a l).
Proof.
  unfold slice. rewrite !bound_nat. destruct (Nat.le_gt_cases a (length l)) as [F|F].
  - rewrite (Nat.min_l a) by exact F. destruct (Nat.le_gt_cases b (length l)) as [G|G]; [rewrite Nat.min_l by exact G; reflexivity|].
    rewrite Nat.min_r by lia. rewrite !firstn_all2 by (rewrite skipn_length; lia). reflexivity.
  - rewrite (Nat.min_r a) by lia. rewrite !skipn_all2 by lia. rewrite !firstn_nil. reflexivity.
Qed.
Lemma steps_window (a b : nat) (l : dataset) : 1 <= a -> steps a b l (firstn (b - (a - 1)) (skipn (a - 1) l)).
Proof.
  intros Ha. split.
  - intros i Hi _. assert (G : forall n k (m : dataset), k < n -> nth_error (firstn n m) k = nth_error m k).
    { intros n k m. revert n k. induction m as [|x m IH]; intros [|n] k Hk; try lia; [rewrite firstn_nil; reflexivity|]. destruct k as [|k]; [reflexivity|]. cbn. apply IH. lia. }
    rewrite G by lia. assert (K : forall n k (m : dataset), nth_error (skipn n m) k = nth_error m (n + k)).
    { induction n as [|n IH]; intros k m; [reflexivity|]. destruct m as [|x m]; [cbn; destruct k; reflexivity|apply IH]. }
    rewrite K. f_equal. lia.
  - rewrite firstn_length, skipn_length. lia.
Qed.
Lemma lookup_app name (f g : h5file) : lookup name (f ++ g) = match lookup name f with Some d => Some d | None => lookup name g end.
Proof. induction f as [|[n d] f IH]; [reflexivity|]. cbn. destruct (String.eqb n name); [reflexivity|exact IH]. Qed.
Lemma lookup_store name n (d : option dataset) : lookup name (store n d) = if String.eqb n name then d else None.
Proof. destruct d; cbn; destruct (String.eqb n name); reflexivity. Qed.
Ltac look := unfold save_data_hdf5, write_file; rewrite ?lookup_app, ?lookup_store; cbn [String.eqb Ascii.eqb Bool.eqb lookup].
Lemma saved_lookup (time sc : dataset) tr ve vc q : let f := save_data_hdf5 time sc tr ve vc q in
  lookup "time" f = Some time /\ lookup "super_cell" f = Some sc /\ lookup "trajectory" f = tr /\ lookup "velocity" f = ve /\ lookup "vc" f = vc /\ lookup "reduced_q_vector" f = q.
Proof. cbv zeta. repeat split; look; destruct tr, ve, vc, q; reflexivity. Qed.
Lemma written_lookup (time sc : dataset) tr ve vc q : let f := write_file time sc tr ve vc q in
  lookup "time" f = Some time /\ lookup "super_cell" f = Some sc /\ lookup "trajectory" f = tr /\ lookup "velocity" f = ve /\ lookup "vc" f = vc /\ lookup "reduced_q_vector" f = q.
Proof. cbv zeta. repeat split; look; destruct tr, ve, vc, q; reflexivity. Qed.
Lemma load_saved (time sc : dataset) tr ve vc q rt a b : initialize_from_hdf5_file (save_data_hdf5 time sc tr ve vc q) rt a b =
  let cut := option_map (slice (a - 1) b) in
  Some match vc with
       | None => LDynamics (MkArgs (if rt then cut tr else None) (cut ve) time sc)
       | Some v => LProjected (slice (a - 1) b v) q (MkArgs None None time sc)
       end.
Proof.
  unfold initialize_from_hdf5_file. destruct (saved_lookup time sc tr ve vc q) as (-> & -> & -> & -> & -> & ->). destruct vc; reflexivity.
Qed.
Lemma cut_all (o : option dataset) : option_map (slice 0 None) o = o.
Proof. destruct o as [d|]; [|reflexivity]. cbn. f_equal. apply (slice_nat 0). Qed.

(* concatenation *)
Lemma without_first_skipn first (l : dataset) : without_first first l (skipn first l).
Proof. exists (firstn first l). split; [symmetry; apply firstn_skipn|apply firstn_length]. Qed.
Lemma extend_all_spec first (files : list h5file) : forall tr ve v cs, map read_file files = map Some cs ->
  (tr <> None -> Forall (fun c => c_trajectory c <> None) cs) -> (ve <> None -> Forall (fun c => c_velocity c <> None) cs) -> (v <> None -> Forall (fun c => c_vc c <> None) cs) ->
  extend_all (Z.of_nat first) files tr ve v = Some
   (match tr with Some t => Some (t ++ concat (map (fun c => match c_trajectory c with Some d => skipn first d | None => [] end) cs)) | None => None end,
    match ve with Some t => Some (t ++ concat (map (fun c => match c_velocity c with Some d => skipn first d | None => [] end) cs)) | None => None end,
    match v with Some t => Some (t ++ concat (map (fun c => match c_vc c with Some d => skipn first d | None => [] end) cs)) | None => None end).
Proof.
  induction files as [|f files IH]; intros tr ve v cs Hr Htr Hve Hv; destruct cs as [|c cs]; try discriminate.
  - cbn. destruct tr, ve, v; cbn; rewrite ?app_nil_r; reflexivity.
  - cbn in Hr. injection Hr as Hf Hr. cbn [extend_all]. rewrite Hf.
    assert (X : forall (a n : option dataset), (a <> None -> n <> None) -> extend (Z.of_nat first) a n = Some (match a with Some t => Some (t ++ match n with Some d => skipn first d | None => [] end) | None => None end)).
    { intros [a|] [n|] H; cbn [extend]; [|exfalso; apply H; [discriminate|reflexivity]|reflexivity|reflexivity]. rewrite slice_nat. reflexivity. }
    rewrite !X; [|intros H; specialize (Hv H); inversion Hv; assumption|intros H; specialize (Hve H); inversion Hve; assumption|intros H; specialize (Htr H); inversion Htr; assumption].
    assert (T : forall (o : option dataset) (F : _ -> Prop) y, (o <> None -> Forall F (c :: cs)) -> (match o with Some t => Some (t ++ y) | None => None end) <> None -> Forall F cs) by (intros o F y H1 H2; destruct o as [d|]; [assert (Z := H1 ltac:(congruence)); inversion Z; assumption|congruence]).
    rewrite (IH _ _ _ cs Hr); [|intros H; eapply (T tr); [exact Htr|exact H]|intros H; eapply (T ve); [exact Hve|exact H]|intros H; eapply (T v); [exact Hv|exact H]].
    destruct tr, ve, v; cbn; rewrite <- ?app_assoc; reflexivity.
Qed.
Lemma concath5_spec first vo (f0 : h5file) files c0 cs : read_file f0 = Some c0 -> map read_file files = map Some cs ->
  (vo = false -> c_trajectory c0 <> None -> Forall (fun c => c_trajectory c <> None) cs) -> (c_velocity c0 <> None -> Forall (fun c => c_velocity c <> None) cs) -> (vo = false -> c_vc c0 <> None -> Forall (fun c => c_vc c <> None) cs) ->
  let all (g : contents -> option dataset) := match g c0 with Some _ => Some (concat (map (fun c => match g c with Some d => skipn first d | None => [] end) (c0 :: cs))) | None => None end in
  concath5 (Z.of_nat first) vo (f0 :: files) = Some (write_file (c_time c0) (c_super_cell c0) (if vo then None else all c_trajectory) (all c_velocity) (if vo then None else all c_vc) (c_q c0)).
Proof.
  intros H0 Hr Htr Hve Hv all. unfold concath5. rewrite H0.
  rewrite (extend_all_spec first files _ _ _ cs Hr).
  - unfold all. cbn [map concat]. destruct vo; destruct (c_trajectory c0), (c_velocity c0), (c_vc c0); cbn [option_map]; rewrite ?slice_nat; reflexivity.
  - intros H. destruct vo; [cbn in H; congruence|]. apply Htr; [reflexivity|]. destruct (c_trajectory c0); cbn in H; congruence.
  - intros H. apply Hve. destruct (c_velocity c0); cbn in H; congruence.
  - intros H. destruct vo; [cbn in H; congruence|]. apply Hv; [reflexivity|]. destruct (c_vc c0); cbn in H; congruence.
Qed.
Lemma extend_all_missing (first : Z) (files : list h5file) tr (ve : dataset) v :
  (exists f c, In f files /\ read_file f = Some c /\ c_velocity c = None) -> extend_all first files tr (Some ve) v = None.
Proof.
  revert tr ve v. induction files as [|f files IH]; intros tr ve v (g & c & Hin & Hr & Hc); [contradiction|]. cbn [extend_all].
  destruct Hin as [->|Hin].
  - rewrite Hr, Hc. cbn. destruct (extend first tr (c_trajectory c)); reflexivity.
  - destruct (read_file f) as [c'|]; [|reflexivity]. destruct (extend first tr (c_trajectory c')) as [tr'|]; [|reflexivity]. destruct (c_velocity c') as [nv|]; cbn; [|reflexivity].
    destruct (extend first v (c_vc c')) as [v'|]; [|reflexivity]. apply IH. exists g, c. repeat split; assumption.
Qed.
End P.
