(** C76: distributions of atomic displacements along a direction. *)
From Verif Require Import HistogramModel HistogramSpec HistogramProofs.
Open Scope R_scope.

(** When a result is returned: the bins are the n equal parts of the range of all projections (widened by one half on each side if all
    are equal); the density of a type in a bin is the fraction of that type's samples in it divided by the bin width, it is never negative,
    and it integrates to one. *)
Theorem C76_densities : forall t types ntypes n direction densities distance, direction <> vzero -> (0 < n)%nat ->
  get_atomic_displacements t types ntypes n direction = Some (densities, distance) ->
  let samples := samples_of (steps t) (natoms t) (disp t) types direction in
  exists lo hi a b, lowest (flat_map samples (seq 0 ntypes)) lo /\ highest (flat_map samples (seq 0 ntypes)) hi /\
    (lo < hi -> a = lo /\ b = hi) /\ (lo = hi -> a = lo - 1/2 /\ b = hi + 1/2) /\ a < b /\
  let w := (b - a) / INR n in
  length densities = ntypes /\ length distance = S n /\ (forall i, (i <= n)%nat -> nth i distance 0 = a + INR i * w - w / 2) /\
  forall j, (j < ntypes)%nat -> length (nth j densities []) = n /\ (0 < length (samples j))%nat /\
    (forall i, (i < n)%nat -> nth i (nth j densities []) 0 = INR (samples_in (Nat.eqb (S i) n) (a + INR i * w) (a + INR (S i) * w) (samples j)) / INR (length (samples j)) / w /\
       0 <= nth i (nth j densities []) 0) /\
    Rsum (map (fun d => d * w) (nth j densities [])) = 1.
Proof.
  intros t types ntypes n d densities distance Hd Hn H samples. unfold get_atomic_displacements in H. rewrite projection_rows in H by exact Hd. cbv zeta in H. fold samples in H.
  destruct (same_lengths (map samples (seq 0 ntypes))) eqn:SL; [|discriminate]. rewrite <- flat_map_concat_map in H.
  destruct (flat_map samples (seq 0 ntypes)) as [|x l] eqn:EF; [discriminate|].
  assert (Lo := amin_spec l x). assert (Hi := amax_spec l x). set (lo := amin x l) in *. set (hi := amax x l) in *.
  assert (Hlh : lo <= hi) by (apply Rle_trans with x; [apply Lo|apply Hi]; left; reflexivity).
  destruct (outer lo hi Hlh) as (O1 & O2 & O3 & O4 & O5). set (a := fst (outer_edges lo hi)) in *. set (b := snd (outer_edges lo hi)) in *.
  exists lo, hi, a, b. split; [exact Lo|]. split; [exact Hi|]. split; [exact O4|]. split; [exact O5|]. split; [exact O1|]. intros w.
  assert (Pw : 0 < w) by (apply (w_pos n lo hi Hn Hlh)).
  assert (Ed : densities = map (fun r => fst (histogram n lo hi r)) (map samples (seq 0 ntypes))) by (injection H as <- _; reflexivity).
  assert (Eb : distance = map (fun i => edge n lo hi i - w / 2) (seq 0 (S n))).
  { assert (H2 := f_equal (fun o => match o with Some (_, y) => y | None => [] end) H). cbv beta iota in H2. rewrite <- H2. unfold histogram. cbv beta zeta. unfold snd at 1 2 3. rewrite map_map. apply map_ext. intros i. f_equal.
    assert (N : forall i, (i <= n)%nat -> nth i (map (edge n lo hi) (seq 0 (S n))) 0 = edge n lo hi i).
    { intros j Hj. rewrite (nth_indep _ 0 (edge n lo hi 0)) by (rewrite map_length, seq_length; lia). rewrite map_nth, seq_nth by lia. reflexivity. }
    rewrite !N by lia. rewrite (edge_S n lo hi 0). fold a b w. field. }
  clear H. split; [rewrite Ed, !map_length, seq_length; reflexivity|]. split; [rewrite Eb, map_length, seq_length; reflexivity|]. split.
  { intros i Hi'. rewrite Eb. rewrite (nth_indep _ 0 ((fun i => edge n lo hi i - w / 2) 0%nat)) by (rewrite map_length, seq_length; lia). rewrite (map_nth (fun i => edge n lo hi i - w / 2)), seq_nth by lia. cbn [plus]. rewrite edge_eq. reflexivity. }
  intros j Hj.
  assert (Er : nth j densities [] = fst (histogram n lo hi (samples j))).
  { rewrite Ed, map_map. rewrite (nth_indep _ [] ((fun r => fst (histogram n lo hi (samples r))) 0%nat)) by (rewrite map_length, seq_length; lia). rewrite (map_nth (fun r => fst (histogram n lo hi (samples r)))), seq_nth by lia. reflexivity. }
  assert (Hin : forall y, In y (samples j) -> lo <= y <= hi).
  { intros y Hy. assert (I : In y (x :: l)) by (rewrite <- EF; apply in_flat_map; exists j; split; [apply in_seq; lia|exact Hy]). split; [apply Lo|apply Hi]; exact I. }
  assert (Hlen : (0 < length (samples j))%nat).
  { assert (SLj : forall r r', In r (map samples (seq 0 ntypes)) -> In r' (map samples (seq 0 ntypes)) -> length r = length r').
    { destruct (map samples (seq 0 ntypes)) as [|r0 rs]; [intros r r' []|]. cbn in SL. rewrite forallb_forall in SL.
      assert (A : forall r, In r (r0 :: rs) -> length r = length r0). { intros r [<- | Hr]; [reflexivity|]. apply Nat.eqb_eq, SL, Hr. }
      intros r r' Hr Hr'. rewrite (A r Hr), (A r' Hr'). reflexivity. }
    assert (I : In x (flat_map samples (seq 0 ntypes))) by (rewrite EF; left; reflexivity). apply in_flat_map in I. destruct I as (j' & Hj' & Hx).
    rewrite (SLj (samples j) (samples j')); [destruct (samples j'); [destruct Hx|cbn; lia]| |]; apply in_map; [apply in_seq; lia|exact Hj']. }
  assert (Tot := counts_total n lo hi Hn Hlh (samples j) Hin).
  assert (Hnth : forall i, (i < n)%nat -> nth i (fst (histogram n lo hi (samples j))) 0 = INR (nth i (counts n lo hi (samples j)) 0%nat) / w / INR (length (samples j))).
  { intros i Hi'. cbn [histogram fst]. rewrite Tot. 
    set (F := fun i => INR (nth i (counts n lo hi (samples j)) 0%nat) / (edge n lo hi (S i) - edge n lo hi i) / INR (length (samples j))).
    rewrite (nth_indep _ 0 (F 0%nat)) by (rewrite map_length, seq_length; lia). rewrite (map_nth F), seq_nth by lia. unfold F. cbn [plus]. rewrite edge_S. fold a b w.
    replace (edge n lo hi i + w - edge n lo hi i) with w by ring. reflexivity. }
  assert (PL : 0 < INR (length (samples j))) by (apply lt_0_INR, Hlen).
  rewrite Er. split; [cbn [histogram fst]; rewrite map_length, seq_length; reflexivity|]. split; [exact Hlen|]. split.
  - intros i Hi'. rewrite Hnth by exact Hi'. split.
    + assert (C : nth i (counts n lo hi (samples j)) 0%nat = samples_in (Nat.eqb (S i) n) (a + INR i * w) (a + INR (S i) * w) (samples j)).
      { unfold counts. rewrite (nth_indep _ 0%nat ((fun i => length (filter (in_bin n lo hi i) (samples j))) 0%nat)) by (rewrite map_length, seq_length; lia).
        rewrite (map_nth (fun i => length (filter (in_bin n lo hi i) (samples j)))), seq_nth by lia. cbn [plus]. unfold samples_in. f_equal. apply filter_ext. intros y.
        rewrite in_bin_spec by exact Hi'. reflexivity. }
      rewrite C. field. lra.
    + unfold Rdiv. assert (0 < / w) by (apply Rinv_0_lt_compat, Pw). assert (0 < / INR (length (samples j))) by (apply Rinv_0_lt_compat, PL). repeat apply Rmult_le_pos; try lra. apply pos_INR.
  - assert (E : forall c, map (fun d => d * w) (fst (histogram n lo hi (samples j))) = map (fun k => INR k / INR (length (samples j))) c -> Rsum (map (fun d => d * w) (fst (histogram n lo hi (samples j)))) = INR (fold_right plus 0%nat c) / INR (length (samples j))).
    { intros c ->. clear - PL. induction c as [|k c IH]; [unfold Rsum; cbn; field; lra|]. change (INR k / INR (length (samples j)) + Rsum (map (fun k => INR k / INR (length (samples j))) c) = INR (k + fold_right plus 0%nat c) / INR (length (samples j))). rewrite IH, plus_INR. field. lra. }
    rewrite (E (counts n lo hi (samples j))); [rewrite Tot; field; lra|].
    apply (nth_ext _ _ 0 0); [rewrite !map_length; unfold counts; cbn [histogram fst]; rewrite !map_length; reflexivity|].
    intros i Hi'. rewrite map_length in Hi'. cbn [histogram fst] in Hi'. rewrite map_length, seq_length in Hi'.
    rewrite (nth_indep _ 0 ((fun d => d * w) 0)) by (rewrite map_length; cbn [histogram fst]; rewrite map_length, seq_length; exact Hi'). rewrite (map_nth (fun d => d * w)), Hnth by exact Hi'.
    rewrite (nth_indep _ 0 ((fun k => INR k / INR (length (samples j))) 0%nat)) by (rewrite map_length; unfold counts; rewrite map_length, seq_length; exact Hi'). rewrite (map_nth (fun k => INR k / INR (length (samples j)))). field. lra.
Qed.
(** The plot puts every bar at the centre of its bin (and fits at the centres) ... *)
Theorem C76_plot_centres : forall t types ntypes n direction densities distance, direction <> vzero -> (0 < n)%nat ->
  get_atomic_displacements t types ntypes n direction = Some (densities, distance) ->
  exists a w, 0 < w /\ (forall i, (i <= n)%nat -> nth i distance 0 = a + INR i * w - w / 2) /\
  forall i, (i < n)%nat -> nth i (fst (plot_centers distance)) 0 = a + INR i * w + w / 2 /\ nth i (snd (plot_centers distance)) 0 = a + INR i * w + w / 2.
Proof.
  intros t types ntypes n d densities distance Hd Hn H.
  destruct (C76_densities t types ntypes n d densities distance Hd Hn H) as (lo & hi & a & b & _ & _ & _ & _ & Hab & Hl & Hld & Hdist & _).
  assert (Pn := lt_0_INR n Hn). exists a, ((b - a) / INR n). set (w := (b - a) / INR n) in *. split; [apply Rdiv_lt_0_compat; lra|]. split; [exact Hdist|].
  intros i Hi. unfold plot_centers. cbv zeta. rewrite Hld. cbn [fst snd]. replace (S n - 1)%nat with n by lia.
  assert (W : nth 1 distance 0 - nth 0 distance 0 = w). { rewrite !Hdist by lia. cbn [INR]. field. } rewrite W.
  split.
  - set (F := fun i => (nth i distance 0 + nth (S i) distance 0 + w) / 2). rewrite (nth_indep _ 0 (F 0%nat)) by (rewrite map_length, seq_length; lia). rewrite (map_nth F), seq_nth by lia. unfold F. cbn [plus].
    rewrite !Hdist by lia. rewrite S_INR. field.
  - set (F := fun i => nth i distance 0 + w). rewrite (nth_indep _ 0 (F 0%nat)) by (rewrite map_length, seq_length; lia). rewrite (map_nth F), seq_nth by lia. unfold F. cbn [plus].
    rewrite !Hdist by lia. field.
Qed.
(** ... but the file lists, beside the density of each bin, the centre of the bin before it: every abscissa written by
    write_atomic_displacements lies outside its bin, by half a bin width. *)
Theorem C76_written_abscissa_refuted : forall ff fv t types ntypes n direction, direction <> vzero -> (0 < n)%nat ->
  forall text, write_atomic_displacements ff fv t types ntypes n direction = Some text ->
  exists densities distance a w, get_atomic_displacements t types ntypes n direction = Some (densities, distance) /\
  write_rows ff fv distance (map (fun i => map (fun r => nth i r 0) densities) (seq 0 n)) = Some text /\ 0 < w /\
  forall i, (i < n)%nat -> nth i distance 0 = (a + INR i * w + w / 2) - w /\ nth i distance 0 < a + INR i * w.
Proof.
  intros ff fv t types ntypes n d Hd Hn text H. unfold write_atomic_displacements in H.
  destruct (get_atomic_displacements t types ntypes n d) as [[densities distance]|] eqn:E; [|discriminate].
  destruct (C76_densities t types ntypes n d densities distance Hd Hn E) as (lo & hi & a & b & _ & _ & _ & _ & Hab & Hl & Hld & Hdist & _).
  assert (Pn := lt_0_INR n Hn). exists densities, distance, a, ((b - a) / INR n). set (w := (b - a) / INR n) in *. assert (Pw : 0 < w) by (apply Rdiv_lt_0_compat; lra).
  split; [reflexivity|]. split; [exact H|]. split; [exact Pw|]. intros i Hi. rewrite Hdist by lia. split; [field|lra].
Qed.
(** The length of the direction vector is irrelevant. *)
Theorem C76_direction : forall t types ntypes n direction k, direction <> vzero -> 0 < k ->
  get_atomic_displacements t types ntypes n (vscale k direction) = get_atomic_displacements t types ntypes n direction.
Proof.
  intros t types ntypes n d k Hd Hk. unfold get_atomic_displacements.
  assert (Hd' : vscale k d <> vzero). { intros E. apply Hd. destruct d as [x y z]. unfold vscale, vzero in E. cbn in E. injection E as Ex Ey Ez.
    apply Rmult_integral in Ex, Ey, Ez. apply vec_eq; cbn; [destruct Ex|destruct Ey|destruct Ez]; lra. }
  rewrite !projection_rows by assumption. cbv zeta.
  replace (map (samples_of (steps t) (natoms t) (disp t) types (vscale k d)) (seq 0 ntypes)) with (map (samples_of (steps t) (natoms t) (disp t) types d) (seq 0 ntypes)); [reflexivity|].
  apply map_ext. intros j. unfold samples_of. apply flat_map_ext'. intros i. apply map_ext. intros s. rewrite vnorm_scale by exact Hk.
  assert (P := vnorm_pos d Hd). unfold vdot, vscale. cbn. field. lra.
Qed.
(** A structure whose types (classes of atoms equivalent by primitive translations: C05) have different numbers of atoms, which happens only if
    the primitive cell does not tile the unit cell, gets no distribution at all. *)
Theorem C76_unequal_types_partial : forall t types ntypes n direction j j', direction <> vzero -> (0 < steps t)%nat -> (j < ntypes)%nat -> (j' < ntypes)%nat ->
  natoms t = length types -> count_occ Nat.eq_dec types j <> count_occ Nat.eq_dec types j' ->
  get_atomic_displacements t types ntypes n direction = None.
Proof.
  intros t types ntypes n d j j' Hd Hs Hj Hj' Hl Hc. unfold get_atomic_displacements. rewrite projection_rows by exact Hd. cbv zeta.
  set (samples := samples_of (steps t) (natoms t) (disp t) types d). destruct (same_lengths (map samples (seq 0 ntypes))) eqn:SL; [|reflexivity]. exfalso.
  assert (L : forall k, length (samples k) = (count_occ Nat.eq_dec types k * steps t)%nat).
  { intros k. unfold samples, samples_of. rewrite flat_map_concat_map.
    assert (C : forall l, length (concat (map (fun i => map (fun s => vdot (disp t s i) d / vnorm d) (seq 0 (steps t))) l)) = (length l * steps t)%nat).
    { induction l as [|i l IH]; [reflexivity|]. cbn [map concat length]. rewrite app_length, IH, map_length, seq_length. lia. }
    rewrite C. f_equal. rewrite Hl. clear. induction types as [|x types IH] using rev_ind; [reflexivity|].
    rewrite app_length, Nat.add_1_r, seq_S, filter_app, app_length, count_occ_app. f_equal.
    - rewrite <- IH. f_equal. apply filter_ext_in. intros i Hi. apply in_seq in Hi. rewrite app_nth1 by lia. reflexivity.
    - cbn [filter plus count_occ]. rewrite app_nth2, Nat.sub_diag by lia. cbn [nth]. destruct (Nat.eqb_spec x k); destruct (Nat.eq_dec x k); try contradiction; reflexivity. }
  assert (E : length (samples j) = length (samples j')).
  { destruct (map samples (seq 0 ntypes)) as [|r0 rs] eqn:Em.
    - assert (In (samples j) []) by (rewrite <- Em; apply in_map, in_seq; lia). contradiction.
    - cbn in SL. rewrite forallb_forall in SL.
      assert (A : forall k, (k < ntypes)%nat -> length (samples k) = length r0). { intros k Hk. assert (I : In (samples k) (r0 :: rs)) by (rewrite <- Em; apply in_map, in_seq; lia). destruct I as [<- | I]; [reflexivity|]. apply Nat.eqb_eq, SL, I. }
      rewrite !A by assumption. reflexivity. }
  rewrite !L in E. apply Hc. nia.
Qed.
(** The converse: with steps, atoms and equally many atoms of every type a result is returned. *)
Theorem C76_equal_types_partial : forall t types ntypes n direction m, direction <> vzero -> (0 < steps t)%nat -> (0 < ntypes)%nat -> (0 < m)%nat ->
  natoms t = length types -> (forall j, (j < ntypes)%nat -> count_occ Nat.eq_dec types j = m) ->
  get_atomic_displacements t types ntypes n direction <> None.
Proof.
  intros t types ntypes n d m Hd Hs Hnt Hm Hl Hc. unfold get_atomic_displacements. rewrite projection_rows by exact Hd. cbv zeta.
  set (samples := samples_of (steps t) (natoms t) (disp t) types d).
  assert (L : forall k, length (samples k) = (count_occ Nat.eq_dec types k * steps t)%nat).
  { intros k. unfold samples, samples_of. rewrite flat_map_concat_map.
    assert (C : forall l, length (concat (map (fun i => map (fun s => vdot (disp t s i) d / vnorm d) (seq 0 (steps t))) l)) = (length l * steps t)%nat).
    { induction l as [|i l IH]; [reflexivity|]. cbn [map concat length]. rewrite app_length, IH, map_length, seq_length. lia. }
    rewrite C. f_equal. rewrite Hl. clear. induction types as [|x types IH] using rev_ind; [reflexivity|].
    rewrite app_length, Nat.add_1_r, seq_S, filter_app, app_length, count_occ_app. f_equal.
    - rewrite <- IH. f_equal. apply filter_ext_in. intros i Hi. apply in_seq in Hi. rewrite app_nth1 by lia. reflexivity.
    - cbn [filter plus count_occ]. rewrite app_nth2, Nat.sub_diag by lia. cbn [nth]. destruct (Nat.eqb_spec x k); destruct (Nat.eq_dec x k); try contradiction; reflexivity. }
  assert (SL : same_lengths (map samples (seq 0 ntypes)) = true).
  { assert (A : forall r, In r (map samples (seq 0 ntypes)) -> length r = (m * steps t)%nat). { intros r Hr. apply in_map_iff in Hr. destruct Hr as (k & <- & Hk). apply in_seq in Hk. rewrite L, Hc by lia. reflexivity. }
    destruct (map samples (seq 0 ntypes)) as [|r0 rs]; [reflexivity|]. cbn. apply forallb_forall. intros r Hr. apply Nat.eqb_eq. rewrite (A r (or_intror Hr)), (A r0 (or_introl eq_refl)). reflexivity. }
  rewrite SL. destruct ntypes as [|k]; [lia|]. cbn [seq map concat]. assert (L0 := L 0%nat). rewrite Hc in L0 by lia. destruct (samples 0%nat) as [|x l]; [cbn in L0; nia|]. discriminate.
Qed.
Print Assumptions C76_densities. Print Assumptions C76_plot_centres. Print Assumptions C76_written_abscissa_refuted. Print Assumptions C76_direction.
Print Assumptions C76_unequal_types_partial. Print Assumptions C76_equal_types_partial.
(** Two atoms of two types, three steps, ten bins along (1, 1, 0): a result is returned; with three atoms of two types none is. *)
Definition demo : rel_trajectory := MkT 3 2 (fun s i => V3 (INR s) (INR i) 0).
Example C76_nonvacuous : V3 1 1 0 <> vzero /\ (0 < 10)%nat /\ get_atomic_displacements demo [0; 1]%nat 2 10 (V3 1 1 0) <> None /\
  get_atomic_displacements (MkT 3 3 (disp demo)) [0; 1; 1]%nat 2 10 (V3 1 1 0) = None.
Proof.
  assert (D : V3 1 1 0 <> vzero) by (intros E; injection E; lra). split; [exact D|]. split; [lia|]. split.
  - apply (C76_equal_types_partial demo [0; 1]%nat 2 10 (V3 1 1 0) 1 D); cbn; try lia. intros j Hj. assert (j = 0 \/ j = 1)%nat as [-> | ->] by lia; reflexivity.
  - apply (C76_unequal_types_partial (MkT 3 3 (disp demo)) [0; 1; 1]%nat 2 10 (V3 1 1 0) 0 1 D); cbn; try lia.
Qed.
