From Verif Require Import SpectraModel SpectraSpec.
From Coq Require Import Lra Lia.
Open Scope R_scope.

Lemma omap_list_some {A B} (f : A -> option B) g l : (forall a, In a l -> f a = Some (g a)) -> omap_list f l = Some (map g l).
Proof.
  induction l as [|a l IH]; intros H; simpl; [reflexivity|]. rewrite H by (left; reflexivity). simpl.
  rewrite IH by (intros b Hb; apply H; right; exact Hb). reflexivity.
Qed.
Lemma zrange_length n : length (zrange n) = Z.to_nat n.
Proof. unfold zrange. rewrite map_length, seq_length. reflexivity. Qed.
Lemma zrange_nth n k d : (k < Z.to_nat n)%nat -> nth k (zrange n) d = Z.of_nat k.
Proof.
  intros H. unfold zrange. rewrite (nth_indep _ d (Z.of_nat 0)) by (rewrite map_length, seq_length; exact H).
  rewrite map_nth, seq_nth by exact H. reflexivity.
Qed.
Lemma zrange_in n i : In i (zrange n) -> (0 <= i < n)%Z.
Proof. unfold zrange. rewrite in_map_iff. intros [k [<- H]]. apply in_seq in H. lia. Qed.

Lemma trunc_exact x : 0 <= x -> @trunc exact x = Some (rfloor x).
Proof. intros H. simpl. destruct (Rle_dec 0 x); [reflexivity|contradiction]. Qed.
Lemma rfloor_nonneg x : 0 <= x -> (0 <= rfloor x)%Z.
Proof. intros H. rewrite <- (rfloor_IZR 0). apply rfloor_mono. exact H. Qed.
Lemma rfloor_div a b : (0 < b)%Z -> rfloor (IZR a / IZR b) = (a / b)%Z.
Proof.
  intros H. apply rfloor_unique. assert (Hb : 0 < IZR b) by (apply IZR_lt; exact H).
  assert (E : IZR a = IZR (a / b) * IZR b + IZR (a mod b)).
  { rewrite <- mult_IZR, <- plus_IZR. f_equal. rewrite Z.mul_comm. apply Z.div_mod. lia. }
  assert (M : 0 <= IZR (a mod b) < IZR b).
  { pose proof (Z.mod_pos_bound a b H) as [M1 M2]. split; [apply IZR_le; exact M1|apply IZR_lt; exact M2]. }
  replace (IZR a / IZR b) with (IZR (a / b) + IZR (a mod b) / IZR b) by (rewrite E; field; lra).
  assert (0 <= IZR (a mod b) / IZR b < 1).
  { split; [apply Rmult_le_pos; [lra|left; apply Rinv_0_lt_compat; exact Hb]|].
    apply (Rmult_lt_reg_r (IZR b)); [exact Hb|]. unfold Rdiv. rewrite Rmult_assoc, Rinv_l by lra. lra. }
  lra.
Qed.

(** generic: pieces floor(k*iv), floor(k*iv)+p for k = 0..n with 0<=iv<=p and n*iv = N-p *)
Lemma pieces_good (N p n : Z) (iv : R) : (1 <= p)%Z -> (1 <= n)%Z -> 0 <= iv <= IZR p -> IZR n * iv = IZR (N - p) ->
  good_pieces N (map (fun i => (rfloor (IZR i * iv), rfloor (IZR i * iv) + p)%Z) (zrange (n + 1))).
Proof.
  intros Hp Hn Hiv Hsum.
  assert (L : forall d k, (k < Z.to_nat (n + 1))%nat -> nth k (map (fun i => (rfloor (IZR i * iv), rfloor (IZR i * iv) + p)%Z) (zrange (n + 1))) d
      = (rfloor (INR k * iv), rfloor (INR k * iv) + p)%Z).
  { intros d k Hk. rewrite (nth_indep _ d ((fun i => (rfloor (IZR i * iv), rfloor (IZR i * iv) + p)%Z) 0%Z)) by (rewrite map_length, zrange_length; exact Hk).
    rewrite (map_nth (fun i => (rfloor (IZR i * iv), rfloor (IZR i * iv) + p)%Z)), zrange_nth by exact Hk. rewrite INR_IZR_INZ. reflexivity. }
  unfold good_pieces. rewrite map_length, zrange_length. split; [lia|]. split; [|split; [|split; [|split]]].
  - intros q Hq. apply in_map_iff in Hq as [i [<- Hi]]. apply zrange_in in Hi. simpl.
    assert (Hi' : 0 <= IZR i <= IZR n) by (split; apply IZR_le; lia).
    split; [apply rfloor_nonneg; apply Rmult_le_pos; lra|]. split; [lia|].
    assert (rfloor (IZR i * iv) <= N - p)%Z; [|lia]. rewrite <- (rfloor_IZR (N - p)). apply rfloor_mono. rewrite <- Hsum.
    apply Rmult_le_compat_r; lra.
  - intros a b Ha Hb. apply in_map_iff in Ha as [i [<- _]]. apply in_map_iff in Hb as [j [<- _]]. simpl. lia.
  - rewrite L by lia. simpl. rewrite Rmult_0_l. apply (rfloor_IZR 0).
  - assert (forall (l : list (Z * Z)) d, last l d = nth (length l - 1) l d) as LN.
    { induction l as [|a l IH]; intros d; [reflexivity|]. destruct l as [|b l]; [reflexivity|].
      change (last (a :: b :: l) d) with (last (b :: l) d). rewrite IH. simpl. rewrite Nat.sub_0_r. reflexivity. }
    rewrite LN, map_length, zrange_length, L by lia. simpl.
    replace (INR (Z.to_nat (n + 1) - 1)) with (IZR n) by (rewrite INR_IZR_INZ; f_equal; lia).
    rewrite Hsum, rfloor_IZR. lia.
  - intros k Hk. rewrite !L by lia. cbn [fst snd].
    rewrite S_INR. split.
    + apply rfloor_mono. lra.
    + rewrite <- rfloor_add. apply rfloor_mono. lra.
Qed.

Lemma division_exact (resolution dt : R) (N : Z) :
  (1 <= N)%Z -> (1 <= around (1 / (dt * resolution)))%Z ->
  exists l, division_of_data exact resolution N dt = Some l /\ good_pieces N l /\
  forall q, In q l -> (snd q - fst q)%Z = piece_length N (around (1 / (dt * resolution))).
Proof.
  intros HN Hp. unfold division_of_data. cbn -[zrange trunc IZR]. set (p := around (1 / (dt * resolution))) in *. clearbody p.
  replace (p =? 0)%Z with false by (symmetry; apply Z.eqb_neq; lia).
  assert (Hp0 : 0 < IZR p) by (apply IZR_lt; lia).
  rewrite trunc_exact. 2:{ apply Rmult_le_pos; [apply IZR_le; lia|left; apply Rinv_0_lt_compat; exact Hp0]. }
  cbn [obind]. rewrite rfloor_div by lia.
  set (n := ((N - 1) / p)%Z). assert (Hn : (0 <= n)%Z) by (apply Z.div_pos; lia).
  assert (Hn1 : (p * n <= N - 1)%Z) by (apply Z.mul_div_le; lia).
  assert (Hn2 : (N - 1 < p * n + p)%Z) by (pose proof (Z.mul_succ_div_gt (N - 1) p); unfold n; lia).
  clearbody n.
  assert (G : forall (iv : R) (m q : Z), (1 <= q)%Z -> (1 <= m)%Z -> 0 <= iv <= IZR q -> IZR m * iv = IZR (N - q) ->
    exists l, omap_list (fun i : Z =>
      let half := IZR q / 2 in let centre := half + IZR i * iv in
      obind (@trunc exact (centre - half)) (fun ini => obind (@trunc exact (centre + half)) (fun fin => Some (ini, fin)))) (zrange (m + 1)) = Some l /\
      good_pieces N l /\ forall x, In x l -> (snd x - fst x)%Z = q).
  { intros iv m q Hq Hm Hiv Hs. eexists. split; [|split; [apply (pieces_good N q m iv Hq Hm Hiv Hs)|]].
    2:{ intros x Hx. apply in_map_iff in Hx as [i [<- _]]. cbn [fst snd]. lia. }
    apply omap_list_some. intros i Hi. apply zrange_in in Hi. cbv zeta.
    assert (Hi' : 0 <= IZR i * iv) by (apply Rmult_le_pos; [apply IZR_le; lia|lra]).
    assert (Hq0 : 0 <= IZR q) by (apply IZR_le; lia).
    rewrite !trunc_exact by lra. cbn [obind].
    replace (IZR q / 2 + IZR i * iv - IZR q / 2) with (IZR i * iv) by lra.
    replace (IZR q / 2 + IZR i * iv + IZR q / 2) with (IZR i * iv + IZR q) by lra.
    rewrite rfloor_add. reflexivity. }
  unfold piece_length. destruct (Z.ltb_spec 0 n) as [Hnp|Hnp]; destruct (Z.leb_spec p (N - 1)) as [Hle|Hle]; try nia.
  - apply (G (IZR (N - p) / IZR n) n p); [lia|lia| |].
    + assert (Hn0 : 0 < IZR n) by (apply IZR_lt; lia). split.
      * apply Rmult_le_pos; [apply IZR_le; nia|left; apply Rinv_0_lt_compat; exact Hn0].
      * apply (Rmult_le_reg_r (IZR n)); [exact Hn0|]. unfold Rdiv. rewrite Rmult_assoc, Rinv_l by lra.
        rewrite Rmult_1_r, <- mult_IZR. apply IZR_le. lia.
    + assert (Hn0 : 0 < IZR n) by (apply IZR_lt; lia). field. lra.
  - apply (G 0 1%Z N); [lia|lia| |].
    + split; [lra|apply IZR_le; lia].
    + rewrite Z.sub_diag. ring.
Qed.

(** ---------- frequency axis ---------- *)
Lemma arange_exact lo stop r : @arange exact lo stop r =
  Some (map (fun k => lo + IZR k * r) (zrange (rceil ((stop - lo) / r)))).
Proof.
  unfold arange. cbn -[zrange IZR]. f_equal. apply map_ext. intros k. destruct k as [|[p|p|]|p]; cbn -[IZR]; lra.
Qed.
Lemma axis_length lo hi r : 0 < r -> lo <= hi -> exists k : nat, rceil ((hi + r - lo) / r) = Z.of_nat (S k) /\ hi <= lo + INR k * r < hi + r.
Proof.
  intros Hr Hl. pose proof (rceil_bounds ((hi + r - lo) / r)) as B. set (n := rceil _) in *. clearbody n.
  assert (E : (hi + r - lo) / r = (hi - lo) / r + 1) by (field; lra). rewrite E in B.
  assert (P : 0 <= (hi - lo) / r) by (apply Rmult_le_pos; [lra|left; apply Rinv_0_lt_compat; exact Hr]).
  assert (Hn : (0 < n)%Z) by (apply lt_IZR; lra).
  exists (Z.to_nat (n - 1)). split; [lia|]. rewrite INR_IZR_INZ, Z2Nat.id by lia. rewrite minus_IZR.
  assert (M : forall x y, x < y -> x * r < y * r) by (intros; apply Rmult_lt_compat_r; assumption).
  assert (Q : (hi - lo) / r * r = hi - lo) by (field; lra).
  assert (B1 := Rmult_le_compat_r r _ _ (Rlt_le _ _ Hr) (proj2 B)).
  assert (B2 := M _ _ (proj1 B)). lra.
Qed.
Lemma axis_good lo hi r : 0 < r -> lo <= hi -> exists l, @arange exact lo (hi + r) r = Some l /\ good_axis lo hi r l.
Proof.
  intros Hr Hl. rewrite arange_exact. destruct (axis_length lo hi r Hr Hl) as [k [E B]]. rewrite E.
  eexists. split; [reflexivity|]. unfold good_axis. rewrite map_length, zrange_length, Nat2Z.id.
  assert (L : forall d j, (j < S k)%nat -> nth j (map (fun k => lo + IZR k * r) (zrange (Z.of_nat (S k)))) d = lo + INR j * r).
  { intros d j Hj. rewrite (nth_indep _ d (lo + IZR 0 * r)) by (rewrite map_length, zrange_length; lia).
    rewrite (map_nth (fun k => lo + IZR k * r)), zrange_nth by lia. rewrite INR_IZR_INZ. reflexivity. }
  split; [lia|]. split; [intros j Hj; apply L; exact Hj|].
  assert (LN : forall (l : list R) d, last l d = nth (length l - 1) l d).
  { induction l as [|a l IH]; intros d; [reflexivity|]. destruct l as [|b l]; [reflexivity|].
    change (last (a :: b :: l) d) with (last (b :: l) d). rewrite IH. simpl. rewrite Nat.sub_0_r. reflexivity. }
  rewrite LN, map_length, zrange_length, Nat2Z.id, L by lia. replace (S k - 1)%nat with k by lia. exact B.
Qed.
Lemma last_indep {A} (l : list A) d d' : l <> [] -> last l d = last l d'.
Proof. induction l as [|a l IH]; [contradiction|]. intros _. destruct l as [|b l]; [reflexivity|]. apply IH. discriminate. Qed.

Lemma limits_axis (lo hi : R) (s : axis exact) : 0 < (resol s : R) -> lo <= hi -> exists s',
  @set_frequency_limits exact lo hi s = Some s' /\ resol s' = resol s /\ good_axis lo hi (resol s) (frange s') /\
  @set_frequency_limits exact lo hi s' = Some s'.
Proof.
  intros Hr Hl. destruct (axis_good lo hi (resol s) Hr Hl) as [l [E G]].
  unfold set_frequency_limits. cbn -[arange]. simpl in E. rewrite E. cbn -[arange]. eexists. split; [reflexivity|].
  split; [reflexivity|]. split; [exact G|]. cbn -[arange]. rewrite E. reflexivity.
Qed.
Lemma good_axis_first lo hi r l : good_axis lo hi r l -> exists t, l = lo :: t.
Proof.
  intros [L [N _]]. destruct l as [|a t]; [simpl in L; lia|]. exists t. specialize (N 0%nat L). simpl in N.
  f_equal. lra.
Qed.
Lemma last_nth' (l : list R) d : last l d = nth (length l - 1) l d.
Proof.
  revert d. induction l as [|a l IH]; intros d; [reflexivity|]. destruct l as [|b l]; [reflexivity|].
  change (last (a :: b :: l) d) with (last (b :: l) d). rewrite IH. simpl. rewrite Nat.sub_0_r. reflexivity.
Qed.
Lemma axis_again lo hi r l : 0 < r -> good_axis lo hi r l -> @arange exact lo (last l 0 + r) r = Some l.
Proof.
  intros Hr [GL [GN GB]]. rewrite arange_exact. f_equal.
  assert (E : rceil ((last l 0 + r - lo) / r) = Z.of_nat (length l)).
  { apply rceil_unique. rewrite last_nth', GN by lia. rewrite <- INR_IZR_INZ.
    replace ((lo + INR (length l - 1) * r + r - lo) / r) with (INR (length l)); [lra|].
    rewrite minus_INR by lia. simpl (INR 1). field. lra. }
  rewrite E. apply nth_ext with (d := 0) (d' := 0).
  - rewrite map_length, zrange_length. lia.
  - intros j Hj. rewrite map_length, zrange_length in Hj. rewrite (nth_indep _ 0 (lo + IZR 0 * r)) by (rewrite map_length, zrange_length; exact Hj).
    rewrite (map_nth (fun k => lo + IZR k * r)), zrange_nth by exact Hj. rewrite GN by lia. rewrite INR_IZR_INZ. reflexivity.
Qed.
Lemma resolution_unfold lo t r (s : axis exact) : frange s = lo :: t ->
  @set_spectra_resolution exact r s = obind (@arange exact lo (last (frange s) 0 + r)%R r) (fun f => Some (MkAxis f r)).
Proof.
  intros E. unfold set_spectra_resolution. rewrite E. cbv zeta. rewrite (last_indep (lo :: t) lo 0) by discriminate. reflexivity.
Qed.
Lemma resolution_axis (lo hi r r' : R) (s : axis exact) : 0 < r' -> good_axis lo hi r (frange s) -> lo <= hi ->
  exists s', @set_spectra_resolution exact r' s = Some s' /\ resol s' = r' /\
  good_axis lo (last (frange s) 0) r' (frange s') /\ @set_spectra_resolution exact r' s' = Some s'.
Proof.
  intros Hr' G Hl. destruct (good_axis_first _ _ _ _ G) as [t Et]. destruct G as [GL [GN GB]].
  assert (Hh : lo <= last (frange s) 0) by (exact (Rle_trans _ _ _ Hl (proj1 GB))).
  destruct (axis_good lo (last (frange s) 0) r' Hr' Hh) as [l [E Gl]].
  rewrite (resolution_unfold lo t r' s Et), E. cbn [obind]. eexists. split; [reflexivity|]. split; [reflexivity|].
  cbn [frange]. split; [exact Gl|]. destruct (good_axis_first _ _ _ _ Gl) as [t' Et'].
  rewrite (resolution_unfold lo t' r' (MkAxis l r') Et'). exact (f_equal (fun o => obind o (fun f => Some (@MkAxis exact f r'))) (axis_again _ _ _ _ Hr' Gl)).
Qed.
