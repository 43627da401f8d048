(** C104: quasi-harmonic results at constant pressure. *)
From Verif Require Export QhaPressureModel.
From Coq Require Import Lra Lia.
Open Scope R_scope.

(** * Specification *)
Definition increasing (l : list R) : Prop := forall i j, (i < j < List.length l)%nat -> nth i l 0 < nth j l 0.
Definition strictly_monotone (l : list R) : Prop := forall i j, (i < j < List.length l)%nat -> nth i l 0 <> nth j l 0.
(** a list of results each computed at a temperature and at the volume of that very temperature *)
Definition own_volume {A} (temperatures volumes : list R) (at_ : R -> R -> A) (p : R * A) : Prop :=
  exists k, (k < List.length temperatures)%nat /\ fst p = nth k temperatures 0 /\ snd p = at_ (nth k temperatures 0) (nth k volumes 0).

(** * Proofs *)
Lemma nth_error_nil {A} i : nth_error (@nil A) i = None. Proof. destruct i; reflexivity. Qed.
Lemma stride_nil {A} k : stride k (@nil A) = []. Proof. reflexivity. Qed.
(** entry i of l[::k] is entry k*i of l *)
Lemma stride_aux {A} k (l : list A) n : (0 < k)%nat -> (n <= List.length l)%nat ->
  forall i, nth_error (flat_map (fun i => if Nat.eqb (Nat.modulo i k) 0 then match nth_error l i with Some x => [x] | None => [] end else []) (seq 0 n)) i
  = if Nat.ltb (k * i) n then nth_error l (k * i) else None.
Proof.
  intros K. induction n as [|n IH]; intros L i.
  - cbn [seq flat_map]. rewrite nth_error_nil. reflexivity.
  - rewrite seq_S, flat_map_app. cbn [flat_map]. rewrite app_nil_r. cbn [Nat.add].
    set (pre := flat_map _ (seq 0 n)) in *.
    (* length of the prefix: the number of multiples below n *)
    assert (Len : forall j, (j < List.length pre)%nat <-> (k * j < n)%nat).
    { intros j. rewrite <- nth_error_Some. rewrite IH by lia. destruct (Nat.ltb_spec (k * j) n).
      - assert (nth_error l (k * j) <> None) by (apply nth_error_Some; lia). tauto.
      - split; [congruence|lia]. }
    destruct (Nat.ltb_spec (k * i) n) as [Q|Q].
    + rewrite nth_error_app1 by (apply Len; lia). rewrite IH by lia.
      destruct (Nat.ltb_spec (k * i) n); [|lia]. destruct (Nat.ltb_spec (k * i) (S n)); [reflexivity|lia].
    + assert (Q2 : (List.length pre <= i)%nat) by (apply Nat.nlt_ge; rewrite Len; lia). rewrite nth_error_app2 by exact Q2.
      destruct (Nat.eqb_spec (Nat.modulo n k) 0) as [M|M].
      * apply Nat.mod_divides in M; [|lia]. destruct M as [c E].
        assert (Lc : List.length pre = c).
        { destruct (Nat.lt_trichotomy (List.length pre) c) as [G|[G|G]]; [|exact G|].
          - exfalso. assert (k * List.length pre < n)%nat by (rewrite E; apply Nat.mul_lt_mono_pos_l; lia). apply Len in H. lia.
          - apply Len in G. lia. }
        rewrite Lc in *. assert (X : nth_error l n <> None) by (apply nth_error_Some; lia). destruct (nth_error l n) as [x|] eqn:En; [|congruence].
        destruct (Nat.eq_dec i c) as [->|Ni].
        -- rewrite Nat.sub_diag. cbn [nth_error]. rewrite <- E. destruct (Nat.ltb_spec n (S n)); [symmetry; exact En|lia].
        -- assert (c < i)%nat by lia. replace (i - c)%nat with (S (i - c - 1)) by lia. cbn [nth_error]. rewrite nth_error_nil.
           destruct (Nat.ltb_spec (k * i) (S n)); [|reflexivity]. exfalso. assert (k * c < k * i)%nat by (apply Nat.mul_lt_mono_pos_l; lia). lia.
      * rewrite nth_error_nil. destruct (Nat.ltb_spec (k * i) (S n)) as [G|G]; [|reflexivity]. exfalso. apply M. assert (n = k * i)%nat by lia. rewrite H, Nat.mul_comm. apply Nat.mod_mul. lia.
Qed.
Lemma nth_error_stride {A} k (l : list A) i : (0 < k)%nat -> nth_error (stride k l) i = nth_error l (k * i).
Proof.
  intros K. unfold stride. rewrite stride_aux by lia. destruct (Nat.ltb_spec (k * i) (List.length l)); [reflexivity|].
  symmetry. apply nth_error_None. lia.
Qed.
Lemma nth_error_combine {A B} (u : list A) (v : list B) i p : nth_error (combine u v) i = Some p -> nth_error u i = Some (fst p) /\ nth_error v i = Some (snd p).
Proof.
  revert v i. induction u as [|a u IH]; intros v i H; [cbn in H; rewrite nth_error_nil in H; discriminate|].
  destruct v as [|b v]; [cbn in H; rewrite nth_error_nil in H; discriminate|]. destruct i as [|i]; cbn in *; [injection H as <-; auto|apply IH, H].
Qed.
Lemma nth_error_combine_some {A B} (u : list A) (v : list B) i a b : nth_error u i = Some a -> nth_error v i = Some b -> nth_error (combine u v) i = Some (a, b).
Proof.
  revert v i. induction u as [|a' u IH]; intros v i H H'; [rewrite nth_error_nil in H; discriminate|].
  destruct v as [|b' v]; [rewrite nth_error_nil in H'; discriminate|]. destruct i as [|i]; cbn in *; [congruence|apply IH; assumption].
Qed.
Lemma nth_error_nth0 (l : list R) i x : nth_error l i = Some x -> nth i l 0 = x. Proof. intros H. apply nth_error_nth, H. Qed.

(** np.interp on increasing abscissae *)
Lemma increasing_tail a l : increasing (a :: l) -> increasing l.
Proof. intros H i j L. apply (H (S i) (S j)). cbn. lia. Qed.
Lemma interp_nodes : forall xs ys x0 y0 k x y, increasing (x0 :: xs) -> List.length xs = List.length ys ->
  nth_error (x0 :: xs) k = Some x -> nth_error (y0 :: ys) k = Some y -> interp_from x x0 y0 (combine xs ys) = y.
Proof.
  induction xs as [|x1 xs IH]; intros [|y1 ys] x0 y0 k x y I L A B; cbn in L; try discriminate.
  - destruct k; cbn in A, B; [injection A as <-; injection B as <-; reflexivity|rewrite nth_error_nil in A; discriminate].
  - cbn [combine interp_from]. destruct k as [|k]; cbn in A, B.
    + injection A as <-. injection B as <-. assert (x0 < x1) by (apply (I 0%nat 1%nat); cbn; lia). destruct (Rlt_dec x0 x1); [|lra]. unfold Rdiv. ring.
    + assert (x1 <= x). { destruct k as [|k]; [cbn in A; injection A as ->; lra|]. assert (V := I 1%nat (S (S k))). cbn in V. cbn in A. rewrite (nth_error_nth xs k 0 A) in V. left. apply V.
        assert (k < List.length xs)%nat by (apply nth_error_Some; congruence). lia. }
      destruct (Rlt_dec x x1); [lra|]. apply (IH ys x1 y1 k x y); [apply increasing_tail in I; exact I|lia|exact A|exact B].
Qed.
Lemma interp_between : forall xs ys x0 y0 k a b u v x, increasing (x0 :: xs) -> List.length xs = List.length ys ->
  nth_error (x0 :: xs) k = Some a -> nth_error (x0 :: xs) (S k) = Some b -> nth_error (y0 :: ys) k = Some u -> nth_error (y0 :: ys) (S k) = Some v ->
  a <= x <= b -> interp_from x x0 y0 (combine xs ys) = u + (v - u) * ((x - a) / (b - a)).
Proof.
  induction xs as [|x1 xs IH]; intros [|y1 ys] x0 y0 k a b u v x I L A B U V X; cbn in L; try discriminate.
  - cbn in B. rewrite nth_error_nil in B. discriminate.
  - cbn [combine interp_from]. assert (O01 : x0 < x1) by (apply (I 0%nat 1%nat); cbn; lia). destruct k as [|k]; cbn [nth_error] in A, B, U, V.
    + injection A as <-. injection B as <-. injection U as <-. injection V as <-. destruct (Rlt_dec x x1); [field; lra|].
      assert (x = x1) by lra. subst x. rewrite (interp_nodes xs ys x1 y1 0 x1 y1); [field; lra|exact (increasing_tail _ _ I)|lia|reflexivity|reflexivity].
    + assert (x1 <= x). { apply Rle_trans with a; [|lra]. destruct k as [|k]; [cbn in A; injection A as ->; lra|]. assert (W := I 1%nat (S (S k))). cbn in W. cbn in A. rewrite (nth_error_nth xs k 0 A) in W. left. apply W.
        assert (k < List.length xs)%nat by (apply nth_error_Some; congruence). lia. }
      destruct (Rlt_dec x x1); [lra|]. apply (IH ys x1 y1 k a b u v x); try assumption; [exact (increasing_tail _ _ I)|lia].
Qed.
Lemma interp_above : forall xs ys x0 y0 x, List.length xs = List.length ys -> (forall z, In z xs -> z <= x) -> interp_from x x0 y0 (combine xs ys) = last ys y0.
Proof.
  induction xs as [|x1 xs IH]; intros [|y1 ys] x0 y0 x L H; cbn in L; try discriminate; [reflexivity|].
  cbn [combine interp_from]. assert (x1 <= x) by (apply H; left; reflexivity). destruct (Rlt_dec x x1); [lra|].
  rewrite IH; [|lia|intros z Z; apply H; right; exact Z]. destruct ys as [|y2 ys]; [reflexivity|].
  assert (Q : forall (l : list R) a p q, last (a :: l) p = last (a :: l) q). { induction l as [|b l IHl]; intros a p q; [reflexivity|]. cbn [last] in *. apply (IHl b). }
  cbn [last]. apply (Q ys y2).
Qed.

Section Props.
Context {DOS FC : Type} (dos_at : R -> R -> DOS) (constants_at : R -> R -> FC).
Context (polyfit : list R -> list R -> nat -> R -> R) (spline : list (R * R) -> R -> option R).

(** * C104 *)
(** the force constants written for a temperature are those of the volume of that temperature, and every 20th temperature is written *)
Theorem C104_constants : forall temperatures volumes, List.length temperatures = List.length volumes ->
  List.Forall (own_volume temperatures volumes constants_at) (get_FC_constant_pressure constants_at temperatures volumes) /\
  forall k, (20 * k < List.length temperatures)%nat -> option_map fst (nth_error (get_FC_constant_pressure constants_at temperatures volumes) k) = Some (nth (20 * k) temperatures 0).
Proof.
  intros T V L. unfold get_FC_constant_pressure. split.
  - apply List.Forall_forall. intros p H. apply in_map_iff in H. destruct H as [[t v] [<- H]]. apply In_nth_error in H. destruct H as [i H].
    apply nth_error_combine in H. cbn [fst snd] in H. destruct H as [A B]. rewrite nth_error_stride in A, B by lia.
    exists (20 * i)%nat. cbn [fst snd]. rewrite (nth_error_nth0 _ _ _ A), (nth_error_nth0 _ _ _ B). split; [apply nth_error_Some; congruence|auto].
  - intros k K. rewrite nth_error_map.
    assert (A : nth_error (stride 20 T) k = Some (nth (20 * k) T 0)) by (rewrite nth_error_stride by lia; apply nth_error_nth'; exact K).
    assert (B : nth_error (stride 20 V) k = Some (nth (20 * k) V 0)) by (rewrite nth_error_stride by lia; apply nth_error_nth'; lia).
    rewrite (nth_error_combine_some _ _ _ _ _ A B). reflexivity.
Qed.
(** the total shifts at constant pressure: entry k is the total shift at temperature k and its own volume *)
Theorem C104_shifts : forall (f : fitting) q b temperatures volumes l, get_total_shift_constant_pressure polyfit spline temperatures volumes f q b = Some l -> List.length temperatures = List.length volumes ->
  List.length l = List.length temperatures /\
  forall k, (k < List.length temperatures)%nat -> get_total_shifts polyfit spline f (Some (nth k volumes 0)) (nth k temperatures 0) false false q b = Some (nth k l 0).
Proof.
  intros f q b T V l H L. unfold get_total_shift_constant_pressure in H. revert V l H L. induction T as [|t T IH]; intros [|v V] l H L; cbn in L; try discriminate.
  - cbn in H. injection H as <-. split; [reflexivity|]. cbn. intros k K. lia.
  - cbn [combine total_shifts] in H. destruct (get_total_shifts _ _ f (Some v) t _ _ q b) as [x|] eqn:E; [|discriminate].
    destruct (total_shifts polyfit spline f q b (combine V T)) as [r|] eqn:F; [|discriminate]. injection H as <-.
    destruct (IH V r F ltac:(lia)) as [A B]. split; [cbn; lia|]. intros [|k] K; cbn [nth]; [exact E|apply B; cbn in K; lia].
Qed.
(** the densities of states: only the first curve is at the volume of its temperature; curve i > 0 of temperature 40 i has the volume of temperature 20 i *)
Theorem C104_dos_gradient : forall temperatures volumes i p, nth_error (dos_gradient dos_at volumes temperatures) i = Some p ->
  fst p = nth (40 * i) temperatures 0 /\ snd p = dos_at (nth (40 * i) temperatures 0) (nth (20 * i) volumes 0).
Proof.
  intros T V i p H. unfold dos_gradient in H. rewrite nth_error_map in H. destruct (nth_error (combine _ _) i) as [[t v]|] eqn:E; [|discriminate]. cbn in H. injection H as <-.
  apply nth_error_combine in E. cbn [fst snd] in *. destruct E as [A B]. rewrite nth_error_stride in A, B by lia.
  rewrite (nth_error_nth0 _ _ _ A), (nth_error_nth0 _ _ _ B). auto.
Qed.
(** refuted: with a thermal expansion (no two volumes equal), every curve after the first is at the volume of another temperature, for any
    calculation that distinguishes volumes *)
Theorem C104_dos_gradient_refuted : (forall t v v', dos_at t v = dos_at t v' -> v = v') ->
  forall temperatures volumes i p, increasing temperatures -> strictly_monotone volumes -> List.length temperatures = List.length volumes -> (0 < i)%nat ->
  nth_error (dos_gradient dos_at volumes temperatures) i = Some p -> ~ own_volume temperatures volumes dos_at p.
Proof.
  intros D T V i p I M L Hi H. destruct (C104_dos_gradient T V i p H) as [A B]. intros [k [K [E F]]].
  assert (Bd : (40 * i < List.length T)%nat).
  { unfold dos_gradient in H. rewrite nth_error_map in H. destruct (nth_error (combine _ _) i) as [[t v]|] eqn:G; [|discriminate].
    apply nth_error_combine in G. destruct G as [G _]. rewrite nth_error_stride in G by lia. apply nth_error_Some. congruence. }
  assert (k = 40 * i)%nat.
  { destruct (Nat.lt_trichotomy k (40 * i)) as [G|[G|G]]; [|exact G|]; [pose proof (I k (40 * i)%nat ltac:(lia))|pose proof (I (40 * i)%nat k ltac:(lia))]; rewrite <- E, A in *; lra. }
  subst k. rewrite B in F. apply D in F. apply (M (20 * i)%nat (40 * i)%nat); [lia|exact F].
Qed.
(** the tables handed to the equation of state fit: row k column j is the property at temperature k and volume j *)
Theorem C104_tables : forall property fit_temperatures vols k j, (k < List.length fit_temperatures)%nat -> (j < List.length vols)%nat ->
  nth j (nth k (property_table fit_temperatures property vols) []) 0 = property (nth k fit_temperatures 0) (nth j vols 0).
Proof.
  intros P T V k j K J. unfold property_table.
  set (g := fun k => map (fun r => nth k r 0) (map (fun v => map (fun t => P t v) T) V)).
  rewrite (nth_indep _ [] (g 0%nat)) by (rewrite map_length, seq_length; exact K). rewrite (map_nth g), seq_nth by exact K. unfold g. cbn [Nat.add].
  rewrite map_map. rewrite (nth_indep _ 0 ((fun v => nth k (map (fun t => P t v) T) 0) 0)) by (rewrite map_length; exact J).
  rewrite (map_nth (fun v => nth k (map (fun t => P t v) T) 0)).
  rewrite (nth_indep _ 0 ((fun t => P t (nth j V 0)) 0)) by (rewrite map_length; exact K). rewrite (map_nth (fun t => P t (nth j V 0))). reflexivity.
Qed.
End Props.

(** the volume at a temperature: exact at the analysed temperatures, linear in between *)
Theorem C104_volume : forall temperatures volumes, increasing temperatures -> List.length temperatures = List.length volumes -> forall k, 
  ((k < List.length temperatures)%nat -> get_volume_at_temperature temperatures volumes (nth k temperatures 0) = Some (nth k volumes 0)) /\
  (forall s, (S k < List.length temperatures)%nat -> 0 <= s <= 1 ->
     get_volume_at_temperature temperatures volumes (nth k temperatures 0 + s * (nth (S k) temperatures 0 - nth k temperatures 0)) = Some (nth k volumes 0 + s * (nth (S k) volumes 0 - nth k volumes 0))).
Proof.
  intros T V I L k. unfold get_volume_at_temperature, np_interp. rewrite (proj2 (Nat.eqb_eq _ _) L).
  destruct T as [|t0 T]; destruct V as [|v0 V]; cbn in L; try discriminate; [split; cbn; intros; lia|]. cbn [combine].
  assert (LL : List.length T = List.length V) by lia. split.
  - intros K. assert (A : nth_error (t0 :: T) k = Some (nth k (t0 :: T) 0)) by (apply nth_error_nth'; exact K).
    assert (B : nth_error (v0 :: V) k = Some (nth k (v0 :: V) 0)) by (apply nth_error_nth'; cbn in *; lia).
    destruct (Rle_dec (nth k (t0 :: T) 0) t0) as [Q|Q].
    + destruct k as [|k]; [reflexivity|]. assert (W := I 0%nat (S k) ltac:(cbn in *; lia)). cbn [nth] in *. lra.
    + f_equal. exact (interp_nodes T V t0 v0 k _ _ I LL A B).
  - intros s K Hs. assert (A : nth_error (t0 :: T) k = Some (nth k (t0 :: T) 0)) by (apply nth_error_nth'; lia).
    assert (A' : nth_error (t0 :: T) (S k) = Some (nth (S k) (t0 :: T) 0)) by (apply nth_error_nth'; exact K).
    assert (B : nth_error (v0 :: V) k = Some (nth k (v0 :: V) 0)) by (apply nth_error_nth'; cbn in *; lia).
    assert (B' : nth_error (v0 :: V) (S k) = Some (nth (S k) (v0 :: V) 0)) by (apply nth_error_nth'; cbn in *; lia).
    assert (W := I k (S k) ltac:(cbn in *; lia)). set (a := nth k (t0 :: T) 0) in *. set (b := nth (S k) (t0 :: T) 0) in *.
    destruct (Rle_dec (a + s * (b - a)) t0) as [Q|Q].
    + assert (a + s * (b - a) <= t0 /\ t0 <= a). { split; [exact Q|]. destruct k as [|k]; [right; reflexivity|]. left. apply (I 0%nat (S k)). cbn in *; lia. }
      assert (s * (b - a) <= 0) by lra. assert (s = 0) by nra. subst s.
      assert (a = t0) by lra. destruct k as [|k]; [f_equal; ring_simplify; reflexivity|]. exfalso. assert (X := I 0%nat (S k) ltac:(cbn in *; lia)). unfold a in *. cbn [nth] in *. lra.
    + f_equal. rewrite (interp_between T V t0 v0 k a b _ _ _ I LL A A' B B') by (split; nra). field. lra.
Qed.
(** refuted: temperatures outside the analysed range are not refused, they silently get the volume of the nearest end *)
Theorem C104_outside_refuted : forall temperatures volumes, increasing temperatures -> List.length temperatures = List.length volumes -> temperatures <> [] -> forall t,
  (t < hd 0 temperatures -> get_volume_at_temperature temperatures volumes t = Some (hd 0 volumes)) /\
  (last temperatures 0 < t -> get_volume_at_temperature temperatures volumes t = Some (last volumes 0)).
Proof.
  intros T V I L N t. unfold get_volume_at_temperature, np_interp. rewrite (proj2 (Nat.eqb_eq _ _) L).
  destruct T as [|t0 T]; [contradiction|]. destruct V as [|v0 V]; [discriminate|]. cbn [combine hd]. assert (LL : List.length T = List.length V) by (cbn in L; lia). split; intros H.
  - destruct (Rle_dec t t0); [reflexivity|lra].
  - assert (Lst : forall z, In z (t0 :: T) -> z <= last (t0 :: T) 0).
    { intros z Z. apply (In_nth _ _ 0) in Z. destruct Z as [i [Hi Ei]].
      assert (E : last (t0 :: T) 0 = nth (List.length T) (t0 :: T) 0).
      { clear. revert t0. induction T as [|t1 T IH]; intros t0; [reflexivity|]. exact (IH t1). }
      rewrite E, <- Ei. destruct (Nat.eq_dec i (List.length T)) as [->|Ne]; [lra|]. left. apply I. cbn in Hi |- *. lia. }
    assert (t0 <= last (t0 :: T) 0) by (apply Lst; left; reflexivity). destruct (Rle_dec t t0); [lra|]. f_equal.
    rewrite interp_above; [|exact LL|intros z Z; assert (z <= last (t0 :: T) 0) by (apply Lst; right; exact Z); lra].
    destruct V as [|v1 V]; [reflexivity|]. assert (Q : forall (l : list R) a p q, last (a :: l) p = last (a :: l) q). { induction l as [|b l IHl]; intros a p q; [reflexivity|]. cbn [last] in *. apply (IHl b). }
    cbn [last]. apply (Q V v1).
Qed.

(** linewidth curves: the index is looked up in the first temperature file *)
Lemma index_found : forall data i q k, index_from i q data = Some k -> exists e, nth_error data (k - i) = Some e /\ (i <= k)%nat /\ allclose (e_q e) q = true.
Proof.
  induction data as [|e data IH]; intros i q k H; [discriminate|]. cbn in H. destruct (allclose (e_q e) q) eqn:A.
  - injection H as <-. exists e. rewrite Nat.sub_diag. auto.
  - destruct (IH (S i) q k H) as [e' [B [C D]]]. exists e'. replace (k - i)%nat with (S (k - S i)) by lia. cbn. repeat split; auto. lia.
Qed.
Lemma pick_spec : forall files k l, pick k files = Some l -> Forall2 (fun f x => exists e, nth_error f k = Some e /\ x = e_linewidths e) files l.
Proof.
  induction files as [|f files IH]; intros k l H; cbn in H; [injection H as <-; constructor|]. destruct (nth_error f k) as [e|] eqn:E; [|discriminate].
  destruct (pick k files) as [r|] eqn:F; [|discriminate]. injection H as <-. constructor; [exists e; auto|apply IH, F].
Qed.
(** two wave vectors written with five or more digits that are the same: every component within 1e-8 and a part in 1e5 of the one asked for *)
Definition same_point (a q : vec) : Prop :=
  Rabs (vx a - vx q) <= 1 / 10 ^ 8 + Rabs (vx q) / 10 ^ 5 /\ Rabs (vy a - vy q) <= 1 / 10 ^ 8 + Rabs (vy q) / 10 ^ 5 /\ Rabs (vz a - vz q) <= 1 / 10 ^ 8 + Rabs (vz q) / 10 ^ 5.
Lemma allclose_same a q : allclose a q = true <-> same_point a q.
Proof.
  unfold allclose, same_point, close1. rewrite !Bool.andb_true_iff.
  assert (X : forall u, 1 / 10 ^ 5 * u = u / 10 ^ 5) by (intros u; field). rewrite !X.
  repeat (match goal with |- context[Rle_dec ?u ?v] => destruct (Rle_dec u v) end); intuition; discriminate.
Qed.
Lemma index_complete : forall data i q, index_from i q data = None -> forall e, In e data -> ~ same_point (e_q e) q.
Proof.
  induction data as [|d data IH]; intros i q H e I; [destruct I|]. cbn in H. destruct (allclose (e_q d) q) eqn:A; [discriminate|].
  destruct I as [->|I]; [|exact (IH _ _ H e I)]. intros S. apply allclose_same in S. congruence.
Qed.
Lemma index_none : forall data i q, (forall e, In e data -> ~ same_point (e_q e) q) -> index_from i q data = None.
Proof.
  induction data as [|d data IH]; intros i q H; [reflexivity|]. cbn. destruct (allclose (e_q d) q) eqn:A.
  - exfalso. apply (H d (or_introl eq_refl)). apply allclose_same. exact A.
  - apply IH. intros e I. apply H. right. exact I.
Qed.
Lemma pick_total : forall files k, (forall f, In f files -> (k < List.length f)%nat) -> exists l, pick k files = Some l.
Proof.
  induction files as [|f files IH]; intros k H; [exists []; reflexivity|]. cbn. destruct (nth_error f k) as [e|] eqn:E.
  - destruct (IH k) as [l ->]; [intros g G; apply H; right; exact G|]. eexists. reflexivity.
  - exfalso. apply nth_error_None in E. assert (k < List.length f)%nat by (apply H; left; reflexivity). lia.
Qed.
(** when all files list the same points in the same order, the curve shows the wave vector asked for, and is refused exactly when this is none of the points *)
Theorem C104_linewidths_partial : forall file0 files q, (forall f, In f files -> map e_q f = map e_q file0) ->
  ((exists e, In e file0 /\ same_point (e_q e) q) -> exists l, plot_linewidth file0 files q = Some l /\ Forall2 (fun f x => exists e, In e f /\ same_point (e_q e) q /\ x = e_linewidths e) files l) /\
  ((forall e, In e file0 -> ~ same_point (e_q e) q) -> plot_linewidth file0 files q = None).
Proof.
  intros file0 files q S. split.
  - intros [e1 [I1 Q1]]. unfold plot_linewidth. destruct (qpoint_to_index file0 q) as [k|] eqn:K; [|exfalso; exact (index_complete _ _ _ K e1 I1 Q1)].
    unfold qpoint_to_index in K. apply index_found in K. destruct K as [e0 [A [_ B]]]. rewrite Nat.sub_0_r in A.
    assert (LL : forall f, In f files -> (k < List.length f)%nat). { intros f F. rewrite <- (map_length e_q f), (S f F), map_length. apply nth_error_Some. congruence. }
    destruct (pick_total files k LL) as [l H]. exists l. split; [exact H|]. clear LL. apply pick_spec in H.
    induction H as [|f x files l [e [E ->]] H IH]; constructor; [|apply IH; intros g G; apply S; right; exact G].
    exists e. split; [apply nth_error_In with k, E|]. split; [|reflexivity]. apply allclose_same.
    assert (Q : nth_error (map e_q f) k = nth_error (map e_q file0) k) by (rewrite S by (left; reflexivity); reflexivity).
    rewrite !nth_error_map, A, E in Q. cbn in Q. injection Q as Q. rewrite Q. exact B.
  - intros N. unfold plot_linewidth, qpoint_to_index. rewrite index_none by exact N. reflexivity.
Qed.
(** refuted otherwise: a file that has another point at that place contributes the linewidths of this other point, even when the point asked for is in the file *)
Theorem C104_linewidths_refuted : forall q q' (w w' : list R), ~ same_point q' q ->
  plot_linewidth [MkE q w; MkE q' w'] [[MkE q' w'; MkE q w]] q = Some [w'].
Proof.
  intros q q' w w' _. assert (A : allclose q q = true).
  { apply allclose_same. unfold same_point. assert (X : forall u, Rabs (u - u) <= 1 / 10 ^ 8 + Rabs u / 10 ^ 5). { intros u. rewrite Rminus_diag_eq by reflexivity. rewrite Rabs_R0. assert (0 <= Rabs u) by apply Rabs_pos. lra. } split; [|split]; apply X. }
  unfold plot_linewidth, qpoint_to_index. cbn [index_from e_q]. rewrite A. reflexivity.
Qed.

(** non-vacuity *)
Example C104_nonvacuous : get_volume_at_temperature [100; 200; 300] [10; 11; 13] 250 = Some 12 /\ (exists p, nth_error (dos_gradient (fun t v => (t, v)) (map INR (seq 0 50)) (map INR (seq 0 50))) 1 = Some p).
Proof.
  split.
  - unfold get_volume_at_temperature, np_interp. cbn [List.length Nat.eqb combine interp_from]. destruct (Rle_dec 250 100); [lra|]. destruct (Rlt_dec 250 200); [lra|]. destruct (Rlt_dec 250 300); [|lra]. f_equal. field.
  - unfold dos_gradient. rewrite nth_error_map.
    assert (A : nth_error (stride 40 (map INR (seq 0 50))) 1 = Some (INR 40)) by (rewrite nth_error_stride by lia; reflexivity).
    assert (B : nth_error (stride 20 (map INR (seq 0 50))) 1 = Some (INR 20)) by (rewrite nth_error_stride by lia; reflexivity).
    rewrite (nth_error_combine_some _ _ _ _ _ A B). cbn [option_map]. eexists. reflexivity.
Qed.
Print Assumptions C104_constants. Print Assumptions C104_shifts. Print Assumptions C104_dos_gradient. Print Assumptions C104_dos_gradient_refuted. Print Assumptions C104_tables. Print Assumptions C104_volume. Print Assumptions C104_outside_refuted. Print Assumptions C104_linewidths_partial. Print Assumptions C104_linewidths_refuted.
