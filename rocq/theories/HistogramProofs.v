From Verif Require Import HistogramModel HistogramSpec.
Open Scope R_scope.
Lemma vnorm_pos d : d <> vzero -> 0 < vnorm d.
Proof.
  intros H. unfold vnorm. apply sqrt_lt_R0. unfold vnorm2, vdot. destruct d as [x y z]; cbn.
  destruct (Rle_lt_dec (x * x + y * y + z * z) 0) as [L|L]; [|exact L]. exfalso. apply H.
  assert (A := Rle_0_sqr x). assert (B := Rle_0_sqr y). assert (C := Rle_0_sqr z). unfold Rsqr in *.
  assert (x = 0) by (apply Rsqr_0_uniq; unfold Rsqr; lra). assert (y = 0) by (apply Rsqr_0_uniq; unfold Rsqr; lra). assert (z = 0) by (apply Rsqr_0_uniq; unfold Rsqr; lra). subst. reflexivity.
Qed.
Lemma vnorm_unit d : d <> vzero -> vnorm (vdiv d (vnorm d)) = 1.
Proof.
  intros H. assert (P := vnorm_pos d H). unfold vnorm at 1. rewrite <- sqrt_1. f_equal.
  assert (S : vnorm d * vnorm d = vnorm2 d). { unfold vnorm. apply sqrt_sqrt. unfold vnorm2, vdot. assert (A := Rle_0_sqr (vx d)). assert (B := Rle_0_sqr (vy d)). assert (C := Rle_0_sqr (vz d)). unfold Rsqr in *. lra. }
  unfold vnorm2, vdot in *. cbn. set (n := vnorm d) in *. replace (_ + _ + _) with ((vx d * vx d + vy d * vy d + vz d * vz d) / (n * n)) by (field; lra). rewrite <- S. field. lra.
Qed.
Lemma vdot_vdiv a d k : k <> 0 -> vdot a (vdiv d k) = vdot a d / k.
Proof. intros H. unfold vdot, vdiv. cbn. field. exact H. Qed.
Lemma vdot_unit a d : d <> vzero -> vdot a (vdiv (vdiv d (vnorm d)) (vnorm (vdiv d (vnorm d)))) = vdot a d / vnorm d.
Proof.
  intros H. rewrite vnorm_unit by exact H. rewrite vdot_vdiv by lra. rewrite vdot_vdiv by (assert (P := vnorm_pos d H); lra).
  field. assert (P := vnorm_pos d H); lra.
Qed.
Lemma vnorm_scale k d : 0 < k -> vnorm (vscale k d) = k * vnorm d.
Proof.
  intros H. unfold vnorm. replace (vnorm2 (vscale k d)) with (k * k * vnorm2 d) by (unfold vnorm2, vdot, vscale; cbn; ring).
  rewrite sqrt_mult_alt by nra. rewrite sqrt_square by lra. reflexivity.
Qed.
Lemma fold_app {A} (g : A -> bool) (h : A -> list R) l p : fold_left (fun p i => if g i then p ++ h i else p) l p = p ++ flat_map h (filter g l).
Proof. revert p. induction l as [|x l IH]; intros p; cbn; [rewrite app_nil_r; reflexivity|]. rewrite IH. destruct (g x); cbn; [rewrite app_assoc|]; reflexivity. Qed.
Lemma flat_map_ext' {A B} (f g : A -> list B) l : (forall a, f a = g a) -> flat_map f l = flat_map g l.
Proof. intros H. induction l as [|a l IH]; [reflexivity|]. cbn. rewrite H, IH. reflexivity. Qed.
Lemma projection_rows t types ntypes d : d <> vzero -> trajectory_projection t types ntypes d =
  let rows := map (samples_of (steps t) (natoms t) (disp t) types d) (seq 0 ntypes) in if same_lengths rows then Some rows else None.
Proof.
  intros H. unfold trajectory_projection. cbv zeta.
  replace (map (fun j => fold_left _ _ _) (seq 0 ntypes)) with (map (samples_of (steps t) (natoms t) (disp t) types d) (seq 0 ntypes)); [reflexivity|].
  apply map_ext. intros j. rewrite fold_app. unfold samples_of. cbn [app]. apply flat_map_ext'. intros i. apply map_ext. intros s. rewrite vdot_unit by exact H. reflexivity.
Qed.
(** extrema *)
Lemma amin_spec l : forall x, lowest (x :: l) (amin x l).
Proof.
  unfold amin. induction l as [|y l IH]; intros x; cbn [fold_left].
  - split; [left; reflexivity|]. intros z [-> | []]. lra.
  - destruct (IH (Rmin x y)) as [I L]. split.
    + destruct I as [E|I]; [|right; right; exact I]. rewrite <- E. unfold Rmin. destruct (Rle_dec x y); [left|right; left]; reflexivity.
    + intros z [<- | [<- | Hz]]; [| |apply L; right; exact Hz]; apply (Rle_trans _ _ _ (L _ (or_introl eq_refl))); [apply Rmin_l|apply Rmin_r].
Qed.
Lemma amax_spec l : forall x, highest (x :: l) (amax x l).
Proof.
  unfold amax. induction l as [|y l IH]; intros x; cbn [fold_left].
  - split; [left; reflexivity|]. intros z [-> | []]. lra.
  - destruct (IH (Rmax x y)) as [I L]. split.
    + destruct I as [E|I]; [|right; right; exact I]. rewrite <- E. unfold Rmax. destruct (Rle_dec x y); [right; left|left]; reflexivity.
    + intros z [<- | [<- | Hz]]; [| |apply L; right; exact Hz]; (apply Rle_trans with (Rmax x y); [|apply L; left; reflexivity]); [apply Rmax_l|apply Rmax_r].
Qed.
(** bins *)
Section Bins.
Context (n : nat) (lo hi : R) (Hn : (0 < n)%nat) (Hlh : lo <= hi).
Notation a := (fst (outer_edges lo hi)). Notation b := (snd (outer_edges lo hi)).
Notation w := ((b - a) / INR n).
Lemma outer : a < b /\ a <= lo /\ hi <= b /\ (lo < hi -> a = lo /\ b = hi) /\ (lo = hi -> a = lo - 1/2 /\ b = hi + 1/2).
Proof. unfold outer_edges. destruct (Req_EM_T lo hi); cbn; repeat split; lra. Qed.
Lemma w_pos : 0 < w. Proof. apply Rdiv_lt_0_compat; [destruct outer; lra|apply lt_0_INR, Hn]. Qed.
Lemma edge_eq i : edge n lo hi i = a + INR i * w.
Proof. unfold edge. destruct (outer_edges lo hi); reflexivity. Qed.
Lemma edge_n : edge n lo hi n = b.
Proof. rewrite edge_eq. assert (P := lt_0_INR n Hn). field. lra. Qed.
Lemma edge_S i : edge n lo hi (S i) = edge n lo hi i + w.
Proof. rewrite !edge_eq, S_INR. ring. Qed.
Lemma in_bin_spec i x : (i < n)%nat -> in_bin n lo hi i x = andb (if Rle_dec (a + INR i * w) x then true else false)
   (if Nat.eqb (S i) n then (if Rle_dec x (a + INR (S i) * w) then true else false) else (if Rlt_dec x (a + INR (S i) * w) then true else false)).
Proof.
  intros Hi. unfold in_bin. rewrite <- !edge_eq. f_equal. destruct (Nat.eqb_spec (S i) n) as [E|E].
  - rewrite E. destruct (Rlt_dec x (edge n lo hi n)); destruct (Rle_dec x (edge n lo hi n)); destruct (Req_EM_T x (edge n lo hi n)); try reflexivity; lra.
  - destruct (Rlt_dec x (edge n lo hi (S i))); reflexivity.
Qed.
(** every sample of the range lies in exactly one bin *)
Lemma one_bin x : lo <= x <= hi -> length (filter (fun i => in_bin n lo hi i x) (seq 0 n)) = 1%nat.
Proof.
  intros Hx. destruct outer as (H1 & H2 & H3 & _ & _). assert (P := w_pos). 
  assert (G : forall m, (m < n)%nat -> length (filter (fun i => in_bin n lo hi i x) (seq 0 m)) = if Rlt_dec x (edge n lo hi m) then 1%nat else 0%nat).
  { induction m as [|m IH]; intros Hm.
    - cbn. destruct (Rlt_dec x (edge n lo hi 0)) as [L|L]; [|reflexivity]. rewrite edge_eq in L. cbn in L. lra.
    - rewrite seq_S, filter_app, app_length, IH by lia. cbn [filter plus]. unfold in_bin. rewrite edge_S. replace (Nat.eqb (S m) n) with false by (symmetry; apply Nat.eqb_neq; lia).
      destruct (Rlt_dec x (edge n lo hi m)); destruct (Rle_dec (edge n lo hi m) x); destruct (Rlt_dec x (edge n lo hi m + w)); cbn; try reflexivity; lra. }
  destruct n as [|m] eqn:En; [lia|]. rewrite seq_S, filter_app, app_length. rewrite <- En in *. rewrite G by lia. cbn [filter plus]. unfold in_bin. rewrite edge_S. 
  replace (Nat.eqb (S m) n) with true by (symmetry; apply Nat.eqb_eq; lia).
  assert (En' : edge n lo hi m + w = b) by (rewrite <- edge_S; rewrite <- En; apply edge_n). rewrite En', edge_n.
  destruct (Rlt_dec x (edge n lo hi m)); destruct (Rle_dec (edge n lo hi m) x); destruct (Rlt_dec x b); destruct (Req_EM_T x b); cbn; try reflexivity; lra.
Qed.
Lemma counts_total l : (forall x, In x l -> lo <= x <= hi) -> fold_right plus 0%nat (counts n lo hi l) = length l.
Proof.
  intros H. unfold counts. induction l as [|x l IH].
  - cbn [filter length]. generalize (seq 0 n). intros s. induction s as [|i s IHs]; [reflexivity|]. cbn. exact IHs.
  - cbn [length]. rewrite <- IH by (intros y Hy; apply H; right; exact Hy).
    transitivity (length (filter (fun i => in_bin n lo hi i x) (seq 0 n)) + fold_right plus 0 (map (fun i => length (filter (in_bin n lo hi i) l)) (seq 0 n)))%nat; [|rewrite one_bin by (apply H; left; reflexivity); reflexivity].
    generalize (seq 0 n). intros s. clear. induction s as [|i s IH]; [reflexivity|]. cbn [map fold_right]. rewrite IH. cbn [filter]. destruct (in_bin n lo hi i x); cbn [length]; lia.
Qed.
End Bins.
