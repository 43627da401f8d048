From Verif Require Import TemplateModel TemplateSpec SupercellProofs.
From Coq Require Import Permutation.
Open Scope R_scope.

(* argmin *)
Lemma argmin_from_spec l : forall best besti i e, 
  (e = besti /\ (forall j, (j < length l)%nat -> best <= nth j l 0)) \/
  (exists k, e = (i + k)%nat /\ (k < length l)%nat /\ nth k l 0 < best /\ (forall j, (j < k)%nat -> nth k l 0 < nth j l 0) /\ (forall j, (j < length l)%nat -> nth k l 0 <= nth j l 0)) ->
  argmin_from best besti i l = e.
Proof.
  induction l as [|y l IH]; intros best besti i e H; cbn [argmin_from].
  - destruct H as [[-> _]|(k & _ & Hk & _)]; [reflexivity|cbn in Hk; lia].
  - destruct H as [[-> H]|(k & -> & Hk & Hb & Hlt & Hle)].
    + destruct (Rlt_dec y best) as [F|F]; [assert (X := H 0%nat ltac:(cbn; lia)); cbn in X; lra|].
      apply IH. left. split; [reflexivity|]. intros j Hj. apply (H (S j)). cbn. lia.
    + destruct k as [|k].
      * cbn [nth] in *. destruct (Rlt_dec y best) as [F|F]; [|contradiction]. apply IH. left. split; [lia|]. intros j Hj. apply (Hle (S j)). cbn. lia.
      * cbn [nth length] in *.
        assert (G : forall b bi, nth k l 0 < b -> argmin_from b bi (S i) l = (i + S k)%nat).
        { intros b bi Hb'. apply IH. right. exists k. split; [lia|]. split; [lia|]. split; [exact Hb'|]. split.
          - intros j Hj. apply (Hlt (S j)). lia.
          - intros j Hj. apply (Hle (S j)). lia. }
        destruct (Rlt_dec y best); apply G; [apply (Hlt 0%nat); lia|exact Hb].
Qed.
Lemma argmin_spec l e : (e < length l)%nat -> (forall j, (j < e)%nat -> nth e l 0 < nth j l 0) -> (forall j, (j < length l)%nat -> nth e l 0 <= nth j l 0) -> argmin l = e.
Proof.
  intros He Hlt Hle. destruct l as [|x l]; [cbn in He; lia|]. cbn [argmin]. apply argmin_from_spec. destruct e as [|e].
  - left. split; [reflexivity|]. intros j Hj. apply (Hle (S j)). cbn. lia.
  - right. exists e. cbn [nth length] in *. split; [reflexivity|]. split; [lia|]. split; [apply (Hlt 0%nat); lia|]. split.
    + intros j Hj. apply (Hlt (S j)). lia.
    + intros j Hj. apply (Hle (S j)). lia.
Qed.
Lemma argmin_bound l : l <> [] -> (argmin l < length l)%nat.
Proof.
  destruct l as [|x l]; [congruence|]. intros _. cbn [argmin length].
  assert (G : forall l best bi i, (bi < i)%nat -> (argmin_from best bi i l < i + length l)%nat).
  { clear. induction l as [|y l IH]; intros best bi i H; cbn [argmin_from length]; [lia|]. destruct (Rlt_dec y best); [specialize (IH y i (S i) ltac:(lia))|specialize (IH best bi (S i) ltac:(lia))]; lia. }
  assert (X := G l x 0%nat 1%nat ltac:(lia)). lia.
Qed.

Lemma trunc_int x : exists z, x - IZR (trunc x) = x - IZR z. Proof. exists (trunc x). reflexivity. Qed.
Lemma frac_nonneg x : 0 <= x -> 0 <= x - IZR (trunc x) < 1.
Proof. intros H. unfold trunc. destruct (Rle_dec 0 x); [|contradiction]. assert (X := rfloor_bounds x). lra. Qed.
Lemma frac_small_neg x : -1 < x < 0 -> x - IZR (trunc x) = x.
Proof. intros H. unfold trunc. destruct (Rle_dec 0 x); [lra|]. rewrite (rceil_unique x 0); [ring|]. cbn. lra. Qed.
Lemma abs_cases x : (Rabs x = x /\ 0 <= x) \/ (Rabs x = - x /\ x < 0).
Proof. unfold Rabs. destruct (Rcase_abs x); [right|left]; split; lra. Qed.
(** the wrapped difference is the difference up to sign and an integer *)
Lemma wrapped_int c p : exists z : Z, wrapped_diff c p = c - p + IZR z \/ wrapped_diff c p = - (c - p + IZR z).
Proof.
  unfold wrapped_diff. destruct (abs_cases (c - p)) as [[-> _]|[-> _]].
  - destruct (Rle_dec (1/2) (c - p)) as [F|F]; [destruct (Rlt_dec (c - p - 1) (- (1/2))); [exists 0%Z; left; cbn; lra|exists (-1)%Z; left; cbn; lra]|].
    destruct (Rlt_dec (c - p) (- (1/2))); [exists 1%Z; left; cbn; lra|exists 0%Z; left; cbn; lra].
  - destruct (Rle_dec (1/2) (- (c - p))) as [F|F]; [destruct (Rlt_dec (- (c - p) - 1) (- (1/2))); [exists 0%Z; right; cbn; lra|exists 1%Z; right; cbn; lra]|].
    destruct (Rlt_dec (- (c - p)) (- (1/2))); [exists (-1)%Z; right; cbn; lra|exists 0%Z; right; cbn; lra].
Qed.
(** for the right atom it is the displacement up to sign *)
Lemma wrapped_own x p l (w : bool) d : 0 <= p < 1 -> Rabs x < 1/2 -> 
  let c := INR l + p + x + shift w d in
  wrapped_diff (c - IZR (trunc c)) p = x \/ wrapped_diff (c - IZR (trunc c)) p = - x.
Proof.
  intros Hp Hx c. assert (Bx : - (1/2) < x < 1/2) by (destruct (abs_cases x) as [[E1 E2]|[E1 E2]]; rewrite E1 in Hx; lra).
  assert (Ec : exists z : Z, c = IZR z + p + x /\ (0 <= z)%Z).
  { unfold c, shift. destruct w; [exists (Z.of_nat l + Z.of_nat d)%Z|exists (Z.of_nat l)]; (split; [rewrite ?plus_IZR, <- !INR_IZR_INZ; ring|lia]). }
  destruct Ec as (z & Ec & Hz).
  assert (Hf : exists y : Z, (c - IZR (trunc c)) - p = x + IZR y /\ (y = -1 \/ y = 0 \/ y = 1)%Z).
  { destruct (Rle_dec 0 c) as [F|F].
    - assert (B := frac_nonneg c F). exists (z - trunc c)%Z. clearbody c. set (t := trunc c) in *. clearbody t. rewrite minus_IZR. split; [lra|].
      assert (L1 : IZR (-2) < IZR (z - t)) by (rewrite minus_IZR; lra). assert (L2 : IZR (z - t) < IZR 2) by (rewrite minus_IZR; lra). apply lt_IZR in L1, L2. lia.
    - assert (z = 0)%Z. { assert (X : IZR z < 1) by lra. apply (lt_IZR z 1) in X. lia. } subst z. cbn in Ec.
      exists 0%Z. split; [rewrite frac_small_neg by lra; rewrite Ec; cbn; ring|tauto]. }
  destruct Hf as (y & Hf & Hy). unfold wrapped_diff. rewrite Hf. destruct Hy as [->|[->| ->]]; cbn.
  - destruct (abs_cases (x + -1)) as [[-> F]|[-> F]]; [lra|]. destruct (Rle_dec (1/2) (- (x + -1))); [|lra]. destruct (Rlt_dec (- (x + -1) - 1) (- (1/2))); [lra|right; lra].
  - rewrite Rplus_0_r. destruct (Rle_dec (1/2) (Rabs x)); [lra|]. destruct (abs_cases x) as [[-> F]|[-> F]]; destruct (Rlt_dec _ (- (1/2))); try lra.
  - destruct (abs_cases (x + 1)) as [[-> F]|[-> F]]; [|lra]. destruct (Rle_dec (1/2) (x + 1)); [|lra]. destruct (Rlt_dec (x + 1 - 1) (- (1/2))); [lra|left; lra].
Qed.

Lemma vnorm_sq a b c : vnorm (V3 a b c) = sqrt (a * a + b * b + c * c).
Proof. reflexivity. Qed.
Lemma vnorm_nonneg v : 0 <= vnorm v. Proof. apply sqrt_pos. Qed.
Lemma vnorm_mul v : vnorm v * vnorm v = vdot v v. Proof. apply sqrt_sqrt. unfold vnorm2, vdot. nra. Qed.
Lemma cauchy a b : vdot a b * vdot a b <= vdot a a * vdot b b.
Proof.
  assert (E : vdot a a * vdot b b - vdot a b * vdot a b = (vx a * vy b - vy a * vx b)^2 + (vx a * vz b - vz a * vx b)^2 + (vy a * vz b - vz a * vy b)^2) by (unfold vdot; ring).
  assert (0 <= (vx a * vy b - vy a * vx b)^2) by apply pow2_ge_0. assert (0 <= (vx a * vz b - vz a * vx b)^2) by apply pow2_ge_0. assert (0 <= (vy a * vz b - vz a * vy b)^2) by apply pow2_ge_0. lra.
Qed.
Lemma far a b : 2 * vnorm b < vnorm a -> vnorm b < vnorm (vadd a b).
Proof.
  intros H. assert (A := vnorm_mul a). assert (B := vnorm_mul b). assert (C := cauchy a b). assert (Na := vnorm_nonneg a). assert (Nb := vnorm_nonneg b).
  set (p := vnorm a) in *. set (q := vnorm b) in *.
  assert (D : - (p * q) <= vdot a b).
  { apply Rnot_lt_le. intros F. rewrite <- A, <- B in C. assert (Q0 : 0 <= p * q) by (apply Rmult_le_pos; assumption). set (d := vdot a b) in *. clearbody d.
    replace (p * p * (q * q)) with (p * q * (p * q)) in C by ring. set (r := p * q) in *. clearbody r. nra. }
  assert (E : vdot (vadd a b) (vadd a b) = p * p + 2 * vdot a b + q * q) by (rewrite A, B; unfold vdot, vadd; cbn; ring).
  unfold vnorm at 1, vnorm2. apply Rnot_le_lt. intros F.
  assert (G : vnorm (vadd a b) * vnorm (vadd a b) <= q * q). { assert (Z := vnorm_nonneg (vadd a b)). fold q in F. change (sqrt (vdot (vadd a b) (vadd a b))) with (vnorm (vadd a b)) in F. nra. }
  rewrite vnorm_mul, E in G. nra.
Qed.
Lemma sq_sign x y : x = y \/ x = - y -> x * x = y * y.
Proof. intros [->| ->]; ring. Qed.

Section Arr.
Context (spos : list vec) (dx dy dz : nat) (Hdx : (0 < dx)%nat) (Hdy : (0 < dy)%nat) (Hdz : (0 < dz)%nat) (Hunit : forall p, In p spos -> in_unit_cell p).
Lemma cell_atom_ok s : site_in spos dx dy dz s -> small spos s -> cell_atom spos (site_coordinate spos dx dy dz s) = k s.
Proof.
  intros (Hx & Hy & Hz & Hk) (Sx & Sy & Sz & Hfar).
  set (c := site_coordinate spos dx dy dz s). unfold cell_atom.
  set (g := fun p => vnorm _).
  assert (Hlen : length (map g spos) = length spos) by apply map_length.
  assert (Nth : forall j, (j < length spos)%nat -> nth j (map g spos) 0 = g (nth j spos vzero)). { intros j Hj. rewrite (nth_indep _ 0 (g vzero)) by (rewrite Hlen; exact Hj). apply map_nth. }
  assert (Own : g (nth (k s) spos vzero) = vnorm (u s)).
  { assert (U := Hunit _ (nth_In _ vzero Hk)). destruct U as (U1 & U2 & U3). unfold g, c, site_coordinate. cbn [vx vy vz].
    rewrite vnorm_sq. rewrite (sq_sign _ _ (wrapped_own (vx (u s)) _ (lx s) (wx s) dx U1 Sx)), (sq_sign _ _ (wrapped_own (vy (u s)) _ (ly s) (wy s) dy U2 Sy)), (sq_sign _ _ (wrapped_own (vz (u s)) _ (lz s) (wz s) dz U3 Sz)). reflexivity. }
  assert (Other : forall j, (j < length spos)%nat -> j <> k s -> vnorm (u s) < g (nth j spos vzero)).
  { intros j Hj Hne. set (p := nth (k s) spos vzero) in *. set (q := nth j spos vzero) in *.
    assert (Comp : forall x P Q l w d, exists z : Z, wrapped_diff (INR l + P + x + shift w d - IZR (trunc (INR l + P + x + shift w d))) Q = (P - Q + IZR z) + x \/ wrapped_diff (INR l + P + x + shift w d - IZR (trunc (INR l + P + x + shift w d))) Q = - ((P - Q + IZR z) + x)).
    { intros x P Q l w d. set (cc := INR l + P + x + shift w d). destruct (wrapped_int (cc - IZR (trunc cc)) Q) as [z Hz'].
      assert (Sh : exists y : Z, shift w d = IZR y) by (unfold shift; destruct w; [exists (Z.of_nat d); apply INR_IZR_INZ|exists 0%Z; reflexivity]). destruct Sh as [y Sh].
      assert (Ecc : cc = INR l + P + x + IZR y) by (unfold cc; rewrite Sh; ring). clearbody cc. set (t := trunc cc) in *. clearbody t.
      exists (Z.of_nat l + y - t + z)%Z. rewrite plus_IZR, minus_IZR, plus_IZR, <- INR_IZR_INZ. destruct Hz' as [E|E]; [left|right]; rewrite E, Ecc; ring. }
    destruct (Comp (vx (u s)) (vx p) (vx q) (lx s) (wx s) dx) as [z1 C1]. destruct (Comp (vy (u s)) (vy p) (vy q) (ly s) (wy s) dy) as [z2 C2]. destruct (Comp (vz (u s)) (vz p) (vz q) (lz s) (wz s) dz) as [z3 C3].
    assert (F := Hfar j (V3 (IZR z1) (IZR z2) (IZR z3)) Hj Hne ltac:(exists z1, z2, z3; reflexivity)). fold p q in F. apply far in F.
    unfold g, c, site_coordinate. fold p. cbn [vx vy vz]. rewrite (vnorm_sq (wrapped_diff _ _)). rewrite (sq_sign _ _ C1), (sq_sign _ _ C2), (sq_sign _ _ C3). exact F. }
  apply argmin_spec.
  - rewrite Hlen. exact Hk.
  - intros j Hj. rewrite !Nth by lia. rewrite Own. apply Other; lia.
  - intros j Hj. rewrite Hlen in Hj. rewrite !Nth by lia. rewrite Own. destruct (Nat.eq_dec j (k s)) as [->|Hne]; [rewrite Own; lra|apply Rlt_le, Other; assumption].
Qed.
Lemma lattice_point_ok d l x w : (l < d)%nat -> Rabs x < 1/2 -> lattice_point d (INR l + x + shift w d) = INR l + x.
Proof.
  intros Hl Hx. assert (Bx : - (1/2) < x < 1/2) by (destruct (abs_cases x) as [[E1 E2]|[E1 E2]]; rewrite E1 in Hx; lra).
  assert (L1 : INR l <= INR d - 1). { replace (INR d - 1) with (INR (d - 1)) by (rewrite minus_INR by lia; reflexivity). apply le_INR. lia. }
  assert (L0 := pos_INR l). unfold lattice_point, shift. destruct w.
  - destruct (Rlt_dec (INR d - 1/2) (INR l + x + INR d)); [|lra]. destruct (Rlt_dec (INR l + x + INR d - INR d) (- (1/2))); lra.
  - rewrite Rplus_0_r. destruct (Rlt_dec (INR d - 1/2) (INR l + x)); [lra|]. destruct (Rlt_dec (INR l + x) (- (1/2))); lra.
Qed.
Lemma comp_le d a b x : (0 < d)%nat -> Rabs x < 1/2 -> ((INR a + x) / INR d - INR a / INR d) * ((INR a + x) / INR d - INR a / INR d) <= ((INR a + x) / INR d - INR b / INR d) * ((INR a + x) / INR d - INR b / INR d) /\
  (a <> b -> ((INR a + x) / INR d - INR a / INR d) * ((INR a + x) / INR d - INR a / INR d) < ((INR a + x) / INR d - INR b / INR d) * ((INR a + x) / INR d - INR b / INR d)).
Proof.
  intros Hd Hx. assert (Bx : - (1/2) < x < 1/2) by (destruct (abs_cases x) as [[E1 E2]|[E1 E2]]; rewrite E1 in Hx; lra).
  assert (Pd : 0 < INR d) by (apply lt_0_INR; exact Hd). assert (Pi : 0 < / INR d) by (apply Rinv_0_lt_compat; exact Pd).
  set (i := / INR d) in *.
  assert (E1 : (INR a + x) / INR d - INR a / INR d = x * i) by (unfold i; field; lra).
  assert (E2 : (INR a + x) / INR d - INR b / INR d = (x + (INR a - INR b)) * i) by (unfold i; field; lra).
  rewrite E1, E2. destruct (Nat.eq_dec a b) as [->|Hne].
  - split; [|congruence]. replace (x + (INR b - INR b)) with x by ring. lra.
  - assert (D : 1 <= INR a - INR b \/ INR a - INR b <= -1).
    { destruct (Nat.lt_ge_cases b a) as [F|F]; [left|right].
      - assert (X : INR (S b) <= INR a) by (apply le_INR; lia). rewrite S_INR in X. lra.
      - assert (X : INR (S a) <= INR b) by (apply le_INR; lia). rewrite S_INR in X. lra. }
    set (t := INR a - INR b) in *.
    assert (K : x * x < (x + t) * (x + t)) by (destruct D; nra).
    assert (P2 : 0 < i * i) by nra.
    assert (G : x * i * (x * i) < (x + t) * i * ((x + t) * i)) by (replace (x * i * (x * i)) with (x * x * (i * i)) by ring; replace ((x + t) * i * ((x + t) * i)) with ((x + t) * (x + t) * (i * i)) by ring; apply Rmult_lt_compat_r; assumption).
    split; [lra|intros _; exact G].
Qed.
Lemma conf_argmin s natoms : site_in spos dx dy dz s -> small spos s -> (dx * dy * dz <= natoms)%nat ->
  argmin (map (conf_distance dx dy dz (V3 (INR (lx s) + vx (u s)) (INR (ly s) + vy (u s)) (INR (lz s) + vz (u s)))) (seq 0 natoms)) = ((lz s * dy + ly s) * dx + lx s)%nat.
Proof.
  intros (Hx & Hy & Hz & Hk) (Sx & Sy & Sz & _) Hn. set (e := ((lz s * dy + ly s) * dx + lx s)%nat). set (lp := V3 _ _ _).
  assert (He : (e < dx * dy * dz)%nat). { unfold e. assert (lz s * dy + ly s + 1 <= dz * dy)%nat by nia. nia. }
  assert (Len : length (map (conf_distance dx dy dz lp) (seq 0 natoms)) = natoms) by (rewrite map_length; apply seq_length).
  assert (Nth : forall j, (j < natoms)%nat -> nth j (map (conf_distance dx dy dz lp) (seq 0 natoms)) 0 = conf_distance dx dy dz lp j).
  { intros j Hj. rewrite (nth_indep _ 0 (conf_distance dx dy dz lp 0)) by (rewrite Len; exact Hj). rewrite map_nth, seq_nth by exact Hj. reflexivity. }
  assert (Oe : dynaphopy_order e dx dy dz = (lx s, ly s, lz s, 0%nat)) by (assert (X := dynaphopy_order_encode dx dy dz (lx s) (ly s) (lz s) 0 Hx Hy Hz); exact X).
  assert (Cmp : forall j, conf_distance dx dy dz lp e <= conf_distance dx dy dz lp j /\ (j <> e -> (j < dx * dy * dz)%nat -> conf_distance dx dy dz lp e < conf_distance dx dy dz lp j)).
  { intros j. unfold conf_distance. rewrite Oe. assert (D := dynaphopy_order_decode dx dy dz j Hdx Hdy Hdz). destruct (dynaphopy_order j dx dy dz) as [[[x y] z] kk] eqn:Oj.
    unfold lp. cbn [vx vy vz]. rewrite !vnorm_sq.
    destruct (comp_le dx (lx s) x (vx (u s)) Hdx Sx) as [A1 A2]. destruct (comp_le dy (ly s) y (vy (u s)) Hdy Sy) as [B1 B2]. destruct (comp_le dz (lz s) z (vz (u s)) Hdz Sz) as [C1 C2].
    split; [apply sqrt_le_1_alt; lra|]. intros Hne Hj. apply sqrt_lt_1_alt. split; [apply Rplus_le_le_0_compat; [apply Rplus_le_le_0_compat|]; apply Rle_0_sqr|].
    assert (Kz : kk = 0%nat). { unfold dynaphopy_order in Oj. injection Oj as _ _ _ Ek. rewrite <- Ek. apply Nat.div_small. lia. }
    destruct (Nat.eq_dec (lx s) x) as [Ex|Ex]; [|specialize (A2 Ex); lra]. destruct (Nat.eq_dec (ly s) y) as [Ey|Ey]; [|specialize (B2 Ey); lra]. destruct (Nat.eq_dec (lz s) z) as [Ez|Ez]; [|specialize (C2 Ez); lra].
    exfalso. apply Hne. rewrite D, Kz. unfold e. subst. reflexivity. }
  apply argmin_spec.
  - rewrite Len. lia.
  - intros j Hj. rewrite !Nth by lia. apply Cmp; lia.
  - intros j Hj. rewrite Len in Hj. rewrite !Nth by lia. apply Cmp.
Qed.
Lemma template_entry_ok s natoms : site_in spos dx dy dz s -> small spos s -> natoms = (length spos * (dx * dy * dz))%nat ->
  template_entry spos dx dy dz natoms (site_coordinate spos dx dy dz s) = INR (site_index dx dy dz s).
Proof.
  intros Hs Hsm Hn. unfold template_entry. rewrite cell_atom_ok by assumption.
  assert (Hs' := Hs). assert (Hsm' := Hsm). destruct Hs' as (Hx & Hy & Hz & Hk). destruct Hsm' as (Sx & Sy & Sz & _).
  set (p := nth (k s) spos vzero).
  assert (E : forall l P x w d, (l < d)%nat -> Rabs x < 1/2 -> lattice_point d (INR l + P + x + shift w d - P) = INR l + x) by (intros l P x w d H1 H2; replace (INR l + P + x + shift w d - P) with (INR l + x + shift w d) by ring; apply lattice_point_ok; assumption).
  unfold site_coordinate at 1 2 3. fold p. cbn [vx vy vz]. rewrite !E by assumption.
  assert (Lp : (0 < length spos)%nat) by lia.
  rewrite conf_argmin by (try assumption; rewrite Hn; nia).
  unfold site_index. rewrite Hn, mult_INR. replace (INR (k s) * (INR (length spos) * INR (dx * dy * dz)) / INR (length spos)) with (INR (k s) * INR (dx * dy * dz)) by (field; apply not_0_INR; lia).
  rewrite <- mult_INR, <- plus_INR. f_equal. ring.
Qed.
Lemma site_index_inj s t : site_in spos dx dy dz s -> site_in spos dx dy dz t -> site_index dx dy dz s = site_index dx dy dz t -> same_place s t.
Proof.
  clear Hdx Hdy Hdz Hunit. intros (Hx & Hy & Hz & _) (Gx & Gy & Gz & _) E. unfold site_index in E.
  assert (A := dynaphopy_order_encode dx dy dz (lx s) (ly s) (lz s) (k s) Hx Hy Hz). rewrite E in A.
  rewrite (dynaphopy_order_encode dx dy dz (lx t) (ly t) (lz t) (k t) Gx Gy Gz) in A. unfold same_place. congruence.
Qed.
Lemma site_index_bound s : site_in spos dx dy dz s -> (site_index dx dy dz s < length spos * (dx * dy * dz))%nat.
Proof.
  clear Hdx Hdy Hdz Hunit. intros (Hx & Hy & Hz & Hk). unfold site_index. assert (k s * dz + lz s + 1 <= length spos * dz)%nat by nia. assert ((k s * dz + lz s) * dy + ly s + 1 <= length spos * dz * dy)%nat by nia. nia.
Qed.
End Arr.
Lemma has_duplicate_false l : has_duplicate l = false <-> NoDup l.
Proof.
  induction l as [|x l IH]; cbn; [split; [constructor|reflexivity]|]. destruct (in_dec Req_EM_T x l) as [F|F].
  - split; [discriminate|]. intros H. inversion H. contradiction.
  - rewrite IH. split; [intros H; constructor; assumption|intros H; inversion H; assumption].
Qed.
Lemma index_nodup spos dx dy dz sites : (forall s, In s sites -> site_in spos dx dy dz s) -> all_places sites -> NoDup (map (site_index dx dy dz) sites).
Proof.
  intros Hin Hall. apply (proj2 (NoDup_nth_error _)). intros i j Hi E. rewrite map_length in Hi. rewrite !nth_error_map in E.
  destruct (nth_error sites i) as [s|] eqn:Es; [|apply nth_error_None in Es; lia]. destruct (nth_error sites j) as [t|] eqn:Et; [|discriminate].
  cbn in E. injection E as E. apply (Hall i j s t Es Et). eapply site_index_inj; [apply Hin, (nth_error_In _ _ Es)|apply Hin, (nth_error_In _ _ Et)|exact E].
Qed.
Lemma index_perm spos dx dy dz sites : (forall s, In s sites -> site_in spos dx dy dz s) -> all_places sites -> length sites = (length spos * (dx * dy * dz))%nat ->
  Permutation (map (site_index dx dy dz) sites) (seq 0 (length sites)).
Proof.
  intros Hin Hall Hl. apply NoDup_Permutation_bis; [eapply index_nodup; eassumption|rewrite map_length, seq_length; lia|].
  intros x Hx. apply in_map_iff in Hx. destruct Hx as (s & <- & Hs). apply in_seq. split; [lia|]. rewrite Hl. cbn. apply (site_index_bound spos), Hin, Hs.
Qed.
Lemma arrangement_correct spos dx dy dz sites : (0 < dx)%nat -> (0 < dy)%nat -> (0 < dz)%nat -> (forall p, In p spos -> in_unit_cell p) ->
  (forall s, In s sites -> site_in spos dx dy dz s /\ small spos s) -> all_places sites -> length sites = (length spos * (dx * dy * dz))%nat ->
  supercell_dim (map (site_coordinate spos dx dy dz) sites) = (Z.of_nat dx, Z.of_nat dy, Z.of_nat dz) ->
  get_correct_arrangement spos (map (site_coordinate spos dx dy dz) sites) = Some (map INR (map (site_index dx dy dz) sites)).
Proof.
  intros Hx Hy Hz Hu Hs Hall Hl Hd. unfold get_correct_arrangement. rewrite Hd.
  assert (B : ((0 <? Z.of_nat dx) && (0 <? Z.of_nat dy) && (0 <? Z.of_nat dz))%Z%bool = true) by (rewrite !andb_true_iff; repeat split; apply Z.ltb_lt; lia). rewrite B, !Nat2Z.id.
  assert (E : map (template_entry spos dx dy dz (length (map (site_coordinate spos dx dy dz) sites))) (map (site_coordinate spos dx dy dz) sites) = map INR (map (site_index dx dy dz) sites)).
  { rewrite map_length, !map_map. apply map_ext_in. intros s Hin. destruct (Hs s Hin) as [H1 H2]. apply template_entry_ok; assumption. }
  rewrite E. assert (D : has_duplicate (map INR (map (site_index dx dy dz) sites)) = false).
  { apply has_duplicate_false. apply FinFun.Injective_map_NoDup; [intros a b; apply INR_eq|]. eapply index_nodup; [intros s Hin; apply Hs, Hin|exact Hall]. }
  rewrite D. reflexivity.
Qed.
Lemma arrangement_distinct spos scaled t : get_correct_arrangement spos scaled = Some t -> NoDup t /\ length t = length scaled.
Proof.
  unfold get_correct_arrangement. destruct (supercell_dim scaled) as [[zx zy] zz]. destruct ((0 <? zx) && (0 <? zy) && (0 <? zz))%Z%bool; [|discriminate].
  set (tm := map _ scaled). intros E. injection E as <-. destruct (has_duplicate tm) eqn:D.
  - split; [|rewrite map_length, seq_length; unfold tm; apply map_length]. apply FinFun.Injective_map_NoDup; [intros a b; apply INR_eq|apply seq_NoDup].
  - split; [apply has_duplicate_false, D|unfold tm; apply map_length].
Qed.
