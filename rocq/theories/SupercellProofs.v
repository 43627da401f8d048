From Verif Require Import SupercellModel SupercellSpec.
Open Scope nat_scope.

Lemma nth_error_flat_map_const {A B} (f : A -> list B) n l i :
  (forall a, length (f a) = n) -> n > 0 ->
  nth_error (flat_map f l) i =
  match nth_error l (i / n) with Some a => nth_error (f a) (i mod n) | None => None end.
Proof.
  intros Hf Hn. revert i. induction l as [|a l IH]; intros i.
  - simpl. destruct i; destruct (_ / n); reflexivity.
  - simpl flat_map. destruct (lt_dec i n) as [H|H].
    + rewrite nth_error_app1 by (rewrite Hf; assumption).
      rewrite Nat.div_small, Nat.mod_small by assumption. reflexivity.
    + rewrite nth_error_app2 by (rewrite Hf; lia). rewrite Hf, IH.
      assert (Ed : i / n = S ((i - n) / n)).
      { replace i with ((i - n) + 1 * n) at 1 by lia. rewrite Nat.div_add by lia. lia. }
      assert (Em : i mod n = (i - n) mod n).
      { replace i with ((i - n) + 1 * n) at 1 by lia. rewrite Nat.mod_add by lia. reflexivity. }
      rewrite Ed, Em. reflexivity.
Qed.

Lemma flat_map_length_const {A B} (f : A -> list B) n l :
  (forall a, length (f a) = n) -> length (flat_map f l) = length l * n.
Proof. intros H; induction l as [|a l IH]; simpl; [reflexivity|]. rewrite app_length, H, IH. lia. Qed.

Lemma product3_length nx ny nz : length (product [seq 0 nz; seq 0 ny; seq 0 nx]) = nz * (ny * nx).
Proof.
  cbn [product].
  rewrite (flat_map_length_const _ (ny * nx)), seq_length; [reflexivity|].
  intros a. rewrite map_length, (flat_map_length_const _ nx), seq_length; [reflexivity|].
  intros b. rewrite map_length, (flat_map_length_const _ 1), seq_length; [lia|]. reflexivity.
Qed.

Lemma nth_error_seq s n i : i < n -> nth_error (seq s n) i = Some (s + i).
Proof.
  revert s i; induction n as [|n IH]; intros s i H; [lia|].
  destruct i; simpl; [f_equal; lia|]. rewrite IH by lia. f_equal; lia.
Qed.

Lemma product3_nth nx ny nz j : nx > 0 -> ny > 0 -> nz > 0 -> j < nz * (ny * nx) ->
  nth_error (product [seq 0 nz; seq 0 ny; seq 0 nx]) j =
  Some [j / (ny * nx); (j mod (ny * nx)) / nx; (j mod (ny * nx)) mod nx].
Proof.
  intros Hx Hy Hz Hj. cbn [product].
  assert (Hyx : ny * nx > 0) by nia.
  assert (L1 : forall a : nat, length (flat_map (fun a0 : nat => map (cons a0) (flat_map (fun a1 : nat => map (cons a1) [[]]) (seq 0 nx))) (seq 0 ny)) = ny * nx).
  { intros _. rewrite (flat_map_length_const _ nx), seq_length; [reflexivity|].
    intros b. rewrite map_length, (flat_map_length_const _ 1), seq_length; [lia|]. reflexivity. }
  assert (Hm : j mod (ny * nx) < ny * nx) by (apply Nat.mod_upper_bound; lia).
  rewrite (nth_error_flat_map_const _ (ny * nx)) by (try (intros; rewrite map_length; apply (L1 0)); lia).
  rewrite nth_error_seq by (apply Nat.div_lt_upper_bound; nia).
  rewrite nth_error_map.
  rewrite (nth_error_flat_map_const _ nx); [|intros b; rewrite map_length, (flat_map_length_const _ 1), seq_length; [lia|reflexivity]|lia].
  rewrite nth_error_seq by (apply Nat.div_lt_upper_bound; nia).
  rewrite nth_error_map.
  rewrite (nth_error_flat_map_const _ 1) by (try reflexivity; lia).
  rewrite Nat.div_1_r, Nat.mod_1_r.
  rewrite nth_error_seq by (apply Nat.mod_upper_bound; lia).
  reflexivity.
Qed.

Lemma get_positions_length cell pos nx ny nz :
  length (get_positions cell pos [nx; ny; nz]) = length pos * (nx * ny * nz).
Proof.
  unfold get_positions. rewrite (flat_map_length_const _ (nx * ny * nz)); [reflexivity|].
  intros a. rewrite map_length. change (map (seq 0) (rev [nx; ny; nz])) with [seq 0 nz; seq 0 ny; seq 0 nx].
  rewrite product3_length. lia.
Qed.

Lemma lattice_translation_image cell p x y z :
  vadd p (lattice_translation cell [x; y; z]) = image cell p x y z.
Proof. unfold lattice_translation, image, vmul. reflexivity. Qed.

Lemma order_arith i nx ny nz : nx > 0 -> ny > 0 -> nz > 0 ->
  let j := i mod (nx * ny * nz) in
  j / (ny * nx) = (i mod (nx * ny * nz)) / (ny * nx) /\
  (j mod (ny * nx)) / nx = (i mod (nx * ny)) / nx /\
  (j mod (ny * nx)) mod nx = i mod nx.
Proof.
  intros Hx Hy Hz j. split; [reflexivity|].
  assert (Hd : forall a b i, a > 0 -> b > 0 -> (i mod (a * b)) mod a = i mod a).
  { intros a b i0 Ha Hb. rewrite Nat.mod_mul_r by lia.
    rewrite <- (Nat.mul_comm ((i0 / a) mod b)), Nat.mod_add, Nat.mod_mod by lia. reflexivity. }
  assert (E : j mod (ny * nx) = i mod (nx * ny)).
  { unfold j. rewrite (Nat.mul_comm ny nx). apply Hd; nia. }
  rewrite E. split; [reflexivity|]. apply Hd; lia.
Qed.

Lemma get_positions_nth cell pos nx ny nz i : nx > 0 -> ny > 0 -> nz > 0 ->
  i < length pos * (nx * ny * nz) ->
  let '(x, y, z, k) := dynaphopy_order i nx ny nz in
  x < nx /\ y < ny /\ z < nz /\ k < length pos /\
  exists p, nth_error pos k = Some p /\
  nth_error (get_positions cell pos [nx; ny; nz]) i = Some (image cell p x y z).
Proof.
  intros Hx Hy Hz Hi. unfold dynaphopy_order.
  assert (Hn : nx * ny * nz > 0) by nia.
  destruct (order_arith i nx ny nz Hx Hy Hz) as [E1 [E2 E3]].
  assert (Hk : i / (nx * ny * nz) < length pos) by (apply Nat.div_lt_upper_bound; nia).
  assert (Hj : i mod (nx * ny * nz) < nx * ny * nz) by (apply Nat.mod_upper_bound; lia).
  assert (Hj2 : i mod (nx * ny) < nx * ny) by (apply Nat.mod_upper_bound; nia).
  replace (ny * nx * nz) with (nx * ny * nz) by lia.
  split; [apply Nat.mod_upper_bound; lia|].
  split; [apply Nat.div_lt_upper_bound; nia|].
  split; [apply Nat.div_lt_upper_bound; nia|].
  split; [assumption|].
  destruct (nth_error pos (i / (nx * ny * nz))) as [p|] eqn:Ep;
    [|apply nth_error_None in Ep; lia].
  exists p; split; [reflexivity|].
  unfold get_positions. change (map (seq 0) (rev [nx; ny; nz])) with [seq 0 nz; seq 0 ny; seq 0 nx].
  rewrite (nth_error_flat_map_const _ (nx * ny * nz));
    [|intros; rewrite map_length, product3_length; lia|lia].
  rewrite Ep, nth_error_map, product3_nth by (try assumption; lia).
  rewrite E2, E3. cbn [option_map rev app]. rewrite lattice_translation_image. reflexivity.
Qed.

Lemma dynaphopy_order_encode nx ny nz x y z k : x < nx -> y < ny -> z < nz ->
  dynaphopy_order (((k * nz + z) * ny + y) * nx + x) nx ny nz = (x, y, z, k).
Proof.
  intros Hx Hy Hz. unfold dynaphopy_order.
  assert (A1 : forall q n r, r < n -> (q * n + r) mod n = r)
    by (intros; rewrite Nat.add_comm, Nat.mod_add by lia; apply Nat.mod_small; lia).
  assert (A2 : forall q n r, r < n -> (q * n + r) / n = q)
    by (intros; rewrite Nat.add_comm, Nat.div_add by lia; rewrite Nat.div_small by lia; lia).
  repeat f_equal.
  - apply A1; assumption.
  - replace (((k * nz + z) * ny + y) * nx + x) with ((k * nz + z) * (nx * ny) + (y * nx + x)) by ring.
    rewrite A1 by nia. apply A2; assumption.
  - replace (((k * nz + z) * ny + y) * nx + x) with (k * (nx * ny * nz) + (z * (ny * nx) + (y * nx + x))) by ring.
    assert (y * nx + x < ny * nx) by nia.
    rewrite A1 by nia. apply A2; nia.
  - replace (((k * nz + z) * ny + y) * nx + x) with (k * (ny * nx * nz) + (z * (ny * nx) + (y * nx + x))) by ring.
    assert (y * nx + x < ny * nx) by nia. apply A2; nia.
Qed.

Lemma dynaphopy_order_decode nx ny nz i : nx > 0 -> ny > 0 -> nz > 0 ->
  let '(x, y, z, k) := dynaphopy_order i nx ny nz in i = ((k * nz + z) * ny + y) * nx + x.
Proof.
  intros Hx Hy Hz. unfold dynaphopy_order.
  replace (ny * nx * nz) with (nx * ny * nz) by lia. replace (ny * nx) with (nx * ny) by lia.
  assert (H1 := Nat.div_mod i (nx * ny * nz) ltac:(nia)).
  set (j := i mod (nx * ny * nz)) in *.
  assert (H2 := Nat.div_mod j (nx * ny) ltac:(nia)).
  assert (E : j mod (nx * ny) = i mod (nx * ny)).
  { unfold j. rewrite (Nat.mod_mul_r i (nx * ny) nz) by nia.
    rewrite (Nat.mul_comm (nx * ny)), Nat.mod_add, Nat.mod_mod by nia. reflexivity. }
  rewrite E in H2.
  assert (H3 := Nat.div_mod (i mod (nx * ny)) nx ltac:(nia)).
  assert (E3 : (i mod (nx * ny)) mod nx = i mod nx).
  { rewrite Nat.mod_mul_r by lia.
    rewrite (Nat.mul_comm nx), Nat.mod_add, Nat.mod_mod by lia. reflexivity. }
  rewrite E3 in H3. nia.
Qed.

Lemma order_bijection natoms nx ny nz : nx > 0 -> ny > 0 -> nz > 0 ->
  forall x y z k, x < nx -> y < ny -> z < nz -> k < natoms ->
  exists i, (i < natoms * (nx * ny * nz) /\ dynaphopy_order i nx ny nz = (x, y, z, k)) /\
  forall i', dynaphopy_order i' nx ny nz = (x, y, z, k) -> i' = i.
Proof.
  intros Hx Hy Hz x y z k Hx' Hy' Hz' Hk.
  exists (((k * nz + z) * ny + y) * nx + x). split; [split|].
  - assert (k * nz + z + 1 <= natoms * nz) by nia.
    assert ((k * nz + z) * ny + y + 1 <= natoms * nz * ny) by nia. nia.
  - apply dynaphopy_order_encode; assumption.
  - intros i' E. assert (D := dynaphopy_order_decode nx ny nz i' Hx Hy Hz).
    rewrite E in D. exact D.
Qed.

(** attribute expansion *)
Lemma nprod3 nx ny nz : nprod [nx; ny; nz] = nx * ny * nz.
Proof. unfold nprod; simpl. lia. Qed.

Lemma expand_loop_spec {A} (attr : list A) n m : forall s acc, s + m <= length attr ->
  expand_loop attr n (seq s m) acc = Some (acc ++ flat_map (fun a => repeat a n) (firstn m (skipn s attr))).
Proof.
  induction m as [|m IH]; intros s acc H; simpl.
  - rewrite app_nil_r; reflexivity.
  - destruct (nth_error attr s) as [a|] eqn:E; [|apply nth_error_None in E; lia].
    rewrite IH by lia. f_equal. rewrite <- app_assoc. f_equal.
    assert (F : skipn s attr = a :: skipn (S s) attr).
    { clear - E. revert s E. induction attr as [|b l IHl]; intros s E; [destruct s; discriminate|].
      destruct s; simpl in *; [injection E as ->; reflexivity|]. apply IHl; assumption. }
    rewrite F. reflexivity.
Qed.

Lemma nth_error_repeat {A} (a : A) n i : i < n -> nth_error (repeat a n) i = Some a.
Proof. revert i; induction n; intros i H; [lia|]. destruct i; simpl; [reflexivity|]. apply IHn; lia. Qed.

Lemma get_attribute_spec {A} natoms (attr : list A) nx ny nz : nx > 0 -> ny > 0 -> nz > 0 ->
  length attr = natoms ->
  exists out, get_attribute natoms attr [nx; ny; nz] = Some out /\
  length out = natoms * (nx * ny * nz) /\
  forall i, i < natoms * (nx * ny * nz) ->
    let '(_, _, _, k) := dynaphopy_order i nx ny nz in nth_error out i = nth_error attr k.
Proof.
  intros Hx Hy Hz <-. unfold get_attribute. rewrite nprod3, expand_loop_spec by lia.
  rewrite firstn_all2 by (simpl; lia). simpl skipn. simpl app.
  eexists; split; [reflexivity|]. split.
  - rewrite (flat_map_length_const _ (nx * ny * nz)); [reflexivity|]. intros; apply repeat_length.
  - intros i Hi. unfold dynaphopy_order.
    rewrite (nth_error_flat_map_const _ (nx * ny * nz)); [|intros; apply repeat_length|nia].
    replace (ny * nx * nz) with (nx * ny * nz) by lia.
    destruct (nth_error attr (i / (nx * ny * nz))) as [a|] eqn:E; [|reflexivity].
    apply nth_error_repeat, Nat.mod_upper_bound; nia.
Qed.

Lemma get_attribute_short {A} natoms (attr : list A) sc :
  length attr < natoms -> get_attribute natoms attr sc = None.
Proof.
  unfold get_attribute. intros H.
  assert (G : forall m s acc, s <= length attr -> length attr < s + m -> expand_loop attr (nprod sc) (seq s m) acc = None).
  { induction m as [|m IH]; intros s acc H1 H2; [lia|]. simpl.
    destruct (nth_error attr s) as [a|] eqn:E; [|reflexivity].
    assert (s < length attr) by (apply nth_error_Some; congruence).
    apply IH; lia. }
  apply G; lia.
Qed.

(** get_cell *)
Lemma get_cell_uniform cell n : get_cell cell n n n = scaled_rows cell n n n.
Proof. unfold get_cell, scaled_rows. vec_ring. Qed.
Lemma get_cell_orthogonal a b c nx ny nz :
  get_cell (mdiag a b c) nx ny nz = scaled_rows (mdiag a b c) nx ny nz.
Proof. unfold get_cell, scaled_rows. vec_ring. Qed.
Lemma get_cell_columns cell nx ny nz :
  get_cell cell nx ny nz = mT (scaled_rows (mT cell) nx ny nz).
Proof. unfold get_cell, scaled_rows. vec_ring. Qed.
(** exact characterisation of when it is right *)
Lemma get_cell_right_iff cell nx ny nz :
  get_cell cell nx ny nz = scaled_rows cell nx ny nz <->
  (nx = ny \/ (vy (r0 cell) = 0 /\ vx (r1 cell) = 0))%R /\
  (nx = nz \/ (vz (r0 cell) = 0 /\ vx (r2 cell) = 0))%R /\
  (ny = nz \/ (vz (r1 cell) = 0 /\ vy (r2 cell) = 0))%R.
Proof.
  unfold get_cell, scaled_rows. destruct cell as [[a b c] [d e f] [g h i]].
  vec_unfold.
  assert (P : forall (m n : nat) (u : R), (INR m * u = INR n * u)%R <-> m = n \/ u = 0%R).
  { intros m n u; split.
    - intros E. destruct (Req_dec u 0) as [Z|Z]; [right; exact Z|left].
      apply INR_eq. apply Rmult_eq_reg_r with u; assumption.
    - intros [-> | ->]; lra. }
  split.
  - intros E. injection E; intros.
    assert (H2' : (INR nx * b = INR ny * b)%R) by lra.
    assert (H3' : (INR nx * d = INR ny * d)%R) by lra.
    assert (H4' : (INR nx * c = INR nz * c)%R) by lra.
    assert (H5' : (INR nx * g = INR nz * g)%R) by lra.
    assert (H6' : (INR ny * f = INR nz * f)%R) by lra.
    assert (H7' : (INR ny * h = INR nz * h)%R) by lra.
    apply P in H2', H3', H4', H5', H6', H7'. tauto.
  - intros [Hxy [Hxz Hyz]].
    destruct Hxy as [E1|[E1 E1']]; destruct Hxz as [E2|[E2 E2']]; destruct Hyz as [E3|[E3 E3']];
      subst; repeat (first [apply mat_eq | apply vec_eq]; simpl); try ring.
Qed.

(** scaled positions *)
Lemma scaled_rows_inverse_scaled inv cell nx ny nz pos :
  (forall m, mdet m <> 0%R -> is_inverse (inv m) m) ->
  mdet (get_cell cell nx ny nz) <> 0%R ->
  get_cell cell nx ny nz = scaled_rows cell nx ny nz ->
  map (fun s => vmul s (scaled_rows cell nx ny nz)) (get_scaled_positions inv cell pos nx ny nz)
  = get_positions cell pos [nx; ny; nz].
Proof.
  intros Hinv Hdet E. unfold get_scaled_positions. rewrite map_map.
  rewrite <- (map_id (get_positions cell pos [nx; ny; nz])) at 2. apply map_ext. intros p.
  rewrite vmul_mmul, <- E. destruct (Hinv _ Hdet) as [_ ->]. apply vmul_mid.
Qed.

Lemma attributes_align (A : Type) (cell : mat) (pos : list vec) (attr : list A) (nx ny nz : nat) :
  nx > 0 -> ny > 0 -> nz > 0 -> length attr = length pos ->
  exists out, get_attribute (length pos) attr [nx; ny; nz] = Some out /\
  length out = length (get_positions cell pos [nx; ny; nz]) /\
  forall i a q, nth_error out i = Some a -> nth_error (get_positions cell pos [nx; ny; nz]) i = Some q ->
  exists x y z k p, x < nx /\ y < ny /\ z < nz /\
    nth_error attr k = Some a /\ nth_error pos k = Some p /\ q = image cell p x y z.
Proof.
  intros Hx Hy Hz Hl.
  destruct (get_attribute_spec (length pos) attr nx ny nz Hx Hy Hz Hl) as [out [E [L N]]].
  exists out; split; [exact E|]. rewrite get_positions_length; split; [exact L|].
  intros i a q Ha Hq.
  assert (Hi : i < length pos * (nx * ny * nz)) by (rewrite <- L; apply nth_error_Some; congruence).
  specialize (N i Hi). pose proof (get_positions_nth cell pos nx ny nz i Hx Hy Hz Hi) as G.
  destruct (dynaphopy_order i nx ny nz) as [[[x y] z] k].
  destruct G as [Gx [Gy [Gz [Gk [p [Gp Gq]]]]]].
  exists x, y, z, k, p. repeat split; try assumption; congruence.
Qed.

Lemma get_cell_refuted :
  exists (cell : mat) (nx ny nz : nat), mdet cell <> 0%R /\ nx > 0 /\ ny > 0 /\ nz > 0 /\
  get_cell cell nx ny nz <> scaled_rows cell nx ny nz.
Proof.
  exists (M3 (V3 1 1 0) (V3 0 1 0) (V3 0 0 1)), 1, 2, 1.
  split; [unfold mdet; simpl; lra|]. repeat split; try lia.
  intros E. apply get_cell_right_iff in E. simpl in E. destruct E as [[E|[E _]] _]; [discriminate|lra].
Qed.
