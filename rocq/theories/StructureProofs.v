From Coq Require Import FinFun.
From Verif Require Import StructureModel StructureSpec SupercellProofs.
Open Scope bool_scope.
Open Scope nat_scope.

(* ---------- list update ---------- *)
Lemma upd_length {A} (l : list A) j v : length (upd l j v) = length l.
Proof. revert j; induction l as [|h t IH]; intros [|j]; simpl; auto. Qed.
Lemma nth_upd {A} (l : list A) j v k d : nth k (upd l j v) d = if (k =? j) && (j <? length l) then v else nth k l d.
Proof.
  revert j k; induction l as [|h t IH]; intros j k; simpl.
  - rewrite andb_false_r. reflexivity.
  - destruct j as [|j], k as [|k]; simpl; try reflexivity. rewrite IH.
    change (S j <? S (length t)) with (j <? length t). reflexivity.
Qed.

(* ---------- the inner loop ---------- *)
Lemma inner_fold_length (equiv : nat -> nat -> bool) i js (T : list (option nat)) :
  length (fold_left (fun T j => if equiv i j then upd T j (nth i T None) else T) js T) = length T.
Proof.
  revert T; induction js as [|j js IH]; intros T; simpl; [reflexivity|].
  rewrite IH. destruct (equiv i j); [apply upd_length|reflexivity].
Qed.
Lemma inner_fold_nth (equiv : nat -> nat -> bool) i js : forall (T : list (option nat)) k,
  (forall j, In j js -> i < j /\ j < length T) ->
  nth k (fold_left (fun T j => if equiv i j then upd T j (nth i T None) else T) js T) None =
  if (existsb (Nat.eqb k) js) && equiv i k then nth i T None else nth k T None.
Proof.
  induction js as [|j js IH]; intros T k H; simpl; [reflexivity|].
  assert (Hj := H j (or_introl eq_refl)).
  rewrite IH by (intros j' Hj'; destruct (equiv i j); rewrite ?upd_length; apply H; right; assumption).
  assert (Ei : nth i (if equiv i j then upd T j (nth i T None) else T) None = nth i T None).
  { destruct (equiv i j); [|reflexivity]. rewrite nth_upd.
    replace (i =? j) with false by (symmetry; apply Nat.eqb_neq; lia). reflexivity. }
  rewrite Ei.
  destruct (existsb (Nat.eqb k) js) eqn:Ex; simpl.
  - rewrite orb_true_r; simpl. destruct (equiv i k) eqn:Ek; [reflexivity|].
    destruct (equiv i j) eqn:Ej; [|reflexivity]. rewrite nth_upd.
    destruct (Nat.eqb_spec k j) as [->|]; [congruence|reflexivity].
  - rewrite orb_false_r. destruct (Nat.eqb_spec k j) as [->|N]; simpl.
    + destruct (equiv i j); [|reflexivity]. rewrite nth_upd, Nat.eqb_refl.
      replace (j <? length T) with true by (symmetry; apply Nat.ltb_lt; lia). reflexivity.
    + destruct (equiv i j); [|reflexivity]. rewrite nth_upd.
      destruct (Nat.eqb_spec k j); [contradiction|reflexivity].
Qed.

Lemma inner_loop_length equiv i n T : length (inner_loop equiv i n T) = length T.
Proof. apply inner_fold_length. Qed.
Lemma inner_loop_nth equiv i n T k : length T = n -> k < n ->
  nth k (inner_loop equiv i n T) None =
  if (i <? k) && equiv i k then nth i T None else nth k T None.
Proof.
  intros HL Hk. unfold inner_loop. rewrite inner_fold_nth.
  - replace (existsb (Nat.eqb k) (seq (S i) (n - S i))) with (i <? k); [reflexivity|].
    destruct (Nat.ltb_spec i k) as [H|H].
    + symmetry. apply existsb_exists. exists k. split; [apply in_seq; lia|apply Nat.eqb_refl].
    + symmetry. apply not_true_iff_false. intros E. apply existsb_exists in E as [x [Hx Ex]].
      apply Nat.eqb_eq in Ex; subst. apply in_seq in Hx. lia.
  - intros j Hj. apply in_seq in Hj. lia.
Qed.

(* ---------- the outer loop ---------- *)
Section TypeLoop.
Variable equiv : nat -> nat -> bool.
Variable n : nat.
Variable Rel : nat -> nat -> Prop.
Hypothesis Rel_refl : forall i, i < n -> Rel i i.
Hypothesis Rel_sym : forall i j, i < n -> j < n -> Rel i j -> Rel j i.
Hypothesis Rel_trans : forall i j k, i < n -> j < n -> k < n -> Rel i j -> Rel j k -> Rel i k.
Hypothesis equiv_Rel : forall i j, i < j -> j < n -> equiv i j = true -> Rel i j.

Record inv_types (m : nat) (T : list (option nat)) (c : nat) : Prop := {
  it_len : length T = n;
  it_done : forall k, k < m -> exists v, nth k T None = Some v;
  it_bound : forall k v, nth k T None = Some v -> v < c;
  it_used : forall v, v < c -> exists k, k < m /\ nth k T None = Some v;
  it_rel : forall k k' v, k < n -> k' < n -> nth k T None = Some v -> nth k' T None = Some v -> Rel k k';
  it_zero : 0 < m -> nth 0 T None = Some 0;
  it_c : m = 0 -> c = 0;
  it_first : forall k v, k < m -> nth k T None = Some v -> exists k', k' <= k /\ nth k' T None = Some v /\ v <= k'
}.

Lemma inv_types_init : inv_types 0 (repeat None n) 0.
Proof.
  assert (N : forall k, nth k (repeat (@None nat) n) None = None).
  { intros k. destruct (lt_dec k n).
    - apply nth_repeat.
    - apply nth_overflow. rewrite repeat_length. lia. }
  split; intros; try (rewrite ?N in *; discriminate); try lia. apply repeat_length.
Qed.

Lemma outer_step_inv m T c : m < n -> inv_types m T c ->
  inv_types (S m) (fst (outer_step equiv n (T, c) m)) (snd (outer_step equiv n (T, c) m)).
Proof.
  intros Hm I. unfold outer_step.
  (* first: the assignment *)
  assert (S1 : exists T1 c1, (match nth m T None with None => (upd T m (Some c), S c) | Some _ => (T, c) end) = (T1, c1)
    /\ length T1 = n
    /\ (forall k, k < S m -> exists v, nth k T1 None = Some v)
    /\ (forall k v, nth k T1 None = Some v -> v < c1)
    /\ (forall v, v < c1 -> exists k, k < S m /\ nth k T1 None = Some v)
    /\ (forall k k' v, k < n -> k' < n -> nth k T1 None = Some v -> nth k' T1 None = Some v -> Rel k k')
    /\ nth 0 T1 None = Some 0
    /\ (forall k v, k < S m -> nth k T1 None = Some v -> exists k', k' <= k /\ nth k' T1 None = Some v /\ v <= k')).
  { destruct (nth m T None) as [v0|] eqn:E.
    - exists T, c. split; [reflexivity|]. split; [apply I|]. split.
      { intros k Hk. destruct (Nat.eq_dec k m) as [->|]; [exists v0; assumption|]. apply (it_done _ _ _ I); lia. }
      split; [apply I|]. split.
      { intros v Hv. destruct (it_used _ _ _ I v Hv) as [k [Hk Ek]]. exists k; split; [lia|assumption]. }
      split; [apply I|]. split.
      { destruct m as [|m']; [|apply (it_zero _ _ _ I); lia].
        assert (v0 < c) by (apply (it_bound _ _ _ I 0); assumption).
        rewrite (it_c _ _ _ I eq_refl) in H. lia. }
      { intros k v Hk Ek. destruct (Nat.eq_dec k m) as [->|]; [|apply (it_first _ _ _ I); [lia|assumption]].
        assert (Hv : v < c) by (apply (it_bound _ _ _ I m); assumption).
        destruct (it_used _ _ _ I v Hv) as [k1 [Hk1 Ek1]].
        destruct (it_first _ _ _ I k1 v Hk1 Ek1) as [k' [L1 [L2 L3]]].
        exists k'. split; [lia|]. split; assumption. }
    - exists (upd T m (Some c)), (S c). split; [reflexivity|].
      assert (U : forall k, nth k (upd T m (Some c)) None = if k =? m then Some c else nth k T None).
      { intros k. rewrite nth_upd. rewrite (it_len _ _ _ I).
        replace (m <? n) with true by (symmetry; apply Nat.ltb_lt; lia). rewrite andb_true_r. reflexivity. }
      split; [rewrite upd_length; apply I|]. split.
      { intros k Hk. rewrite U. destruct (Nat.eqb_spec k m); [eexists; reflexivity|]. apply (it_done _ _ _ I); lia. }
      split.
      { intros k v. rewrite U. destruct (Nat.eqb_spec k m); [intros [= <-]; lia|].
        intros H; apply (it_bound _ _ _ I) in H; lia. }
      split.
      { intros v Hv. destruct (Nat.eq_dec v c) as [->|Nv].
        - exists m. rewrite U, Nat.eqb_refl. split; [lia|reflexivity].
        - destruct (it_used _ _ _ I v ltac:(lia)) as [k [Hk Ek]]. exists k. rewrite U.
          destruct (Nat.eqb_spec k m); [lia|]. split; [lia|assumption]. }
      split.
      { intros k k' v Hk Hk'. rewrite !U.
        destruct (Nat.eqb_spec k m) as [->|], (Nat.eqb_spec k' m) as [->|].
        - intros _ _. apply Rel_refl; lia.
        - intros [= <-] H. apply (it_bound _ _ _ I) in H; lia.
        - intros H [= <-]. apply (it_bound _ _ _ I) in H; lia.
        - apply (it_rel _ _ _ I); assumption. }
      split.
      { rewrite U. destruct (Nat.eqb_spec 0 m) as [H0|N]; [rewrite (it_c _ _ _ I (eq_sym H0)); reflexivity|].
        apply (it_zero _ _ _ I); lia. }
      { intros k v Hk. rewrite U. destruct (Nat.eqb_spec k m) as [->|N].
        - intros [= <-]. exists m. rewrite U, Nat.eqb_refl. split; [lia|]. split; [reflexivity|].
          (* c <= m : pigeonhole *)
          destruct (le_lt_dec c m) as [L|L]; [assumption|exfalso].
          assert (P : exists v, v < c /\ ~ exists k, k < m /\ nth k T None = Some v).
          { clear - L I. pose proof (it_used _ _ _ I) as Us. exfalso.
            assert (Inc : incl (map Some (seq 0 c)) (firstn m T)).
            { intros o Ho. apply in_map_iff in Ho as [v [<- Hv]]. apply in_seq in Hv.
              destruct (Us v ltac:(lia)) as [k [Hk Ek]]. rewrite <- Ek.
              assert (k < length T).
              { destruct (lt_dec k (length T)); [assumption|]. rewrite nth_overflow in Ek by lia. discriminate. }
              assert (EF : nth k T None = nth k (firstn m T) None).
              { rewrite <- (firstn_skipn m T) at 1. rewrite app_nth1 by (rewrite firstn_length; lia). reflexivity. }
              rewrite EF. apply nth_In. rewrite firstn_length. lia. }
            apply NoDup_incl_length in Inc.
            - rewrite map_length, seq_length, firstn_length in Inc. lia.
            - apply Injective_map_NoDup; [intros a b [= ->]; reflexivity|apply seq_NoDup]. }
          destruct P as [v [Hv Nv]]. apply Nv, (it_used _ _ _ I v Hv).
        - intros H. destruct (it_first _ _ _ I k v ltac:(lia) H) as [k' [L1 [L2 L3]]].
          exists k'. split; [assumption|]. split; [|assumption]. rewrite U.
          destruct (Nat.eqb_spec k' m); [lia|assumption]. } }
  destruct S1 as [T1 [c1 [E1 [L1 [D1 [B1 [U1 [R1' [Z1 F1]]]]]]]]].
  rewrite E1. simpl.
  assert (NI : forall k, k < n -> nth k (inner_loop equiv m n T1) None =
      if (m <? k) && equiv m k then nth m T1 None else nth k T1 None)
    by (intros; apply inner_loop_nth; assumption).
  assert (NO : forall k, k < S m -> nth k (inner_loop equiv m n T1) None = nth k T1 None).
  { intros k Hk. rewrite NI by lia. destruct (Nat.ltb_spec m k); [lia|reflexivity]. }
  assert (NB : forall k v, nth k (inner_loop equiv m n T1) None = Some v -> k < n).
  { intros k v H. destruct (lt_dec k n); [assumption|].
    rewrite nth_overflow in H by (rewrite inner_loop_length, L1; lia). discriminate. }
  split.
  - rewrite inner_loop_length; assumption.
  - intros k Hk. rewrite NO by lia. apply D1; assumption.
  - intros k v H. assert (Hk := NB k v H). rewrite NI in H by assumption.
    destruct (_ && _); eapply B1; exact H.
  - intros v Hv. destruct (U1 v Hv) as [k [Hk Ek]]. exists k. rewrite NO by lia. split; assumption.
  - assert (G : forall k v, k < n -> nth k (inner_loop equiv m n T1) None = Some v ->
                exists k0, k0 < n /\ nth k0 T1 None = Some v /\ Rel k0 k).
    { intros k v Hk H. rewrite NI in H by assumption.
      destruct (m <? k) eqn:E; simpl in H.
      - apply Nat.ltb_lt in E. destruct (equiv m k) eqn:Eq.
        + exists m. split; [lia|]. split; [assumption|]. apply equiv_Rel; assumption.
        + exists k. split; [assumption|]. split; [assumption|]. apply Rel_refl; assumption.
      - exists k. split; [assumption|]. split; [assumption|]. apply Rel_refl; assumption. }
    intros k k' v Hk Hk' H H'.
    destruct (G k v Hk H) as [a [Ha [Ea Ra]]]. destruct (G k' v Hk' H') as [b [Hb [Eb Rb]]].
    apply (Rel_trans k a k'); try assumption; [apply Rel_sym; assumption|].
    apply (Rel_trans a b k'); try assumption. apply (R1' a b v); assumption.
  - intros _. rewrite NO by lia. assumption.
  - discriminate.
  - intros k v Hk. rewrite NO by lia. intros H. destruct (F1 k v Hk H) as [k' [A1 [A2 A3]]].
    exists k'. split; [assumption|]. rewrite NO by lia. split; assumption.
Qed.

Lemma type_loop_prefix m : m <= n ->
  let st := fold_left (outer_step equiv n) (seq 0 m) (repeat None n, 0) in
  inv_types m (fst st) (snd st).
Proof.
  induction m as [|m IH]; intros Hm; [apply inv_types_init|]. cbv zeta.
  rewrite seq_S, fold_left_app. cbn [fold_left Nat.add].
  specialize (IH ltac:(lia)). cbv zeta in IH.
  destruct (fold_left (outer_step equiv n) (seq 0 m) (repeat None n, 0)) as [T c].
  apply outer_step_inv; [lia|assumption].
Qed.

Lemma type_loop_inv : inv_types n (fst (type_loop equiv n)) (snd (type_loop equiv n)).
Proof. apply (type_loop_prefix n (le_n n)). Qed.

(** completeness: when the test is (the strict upper triangle of) an equivalence relation *)
Hypothesis equiv_complete : forall i j, i < j -> j < n -> Rel i j -> equiv i j = true.

Lemma type_loop_complete : forall k k', k < n -> k' < n -> Rel k k' ->
  nth k (fst (type_loop equiv n)) None = nth k' (fst (type_loop equiv n)) None.
Proof.
  assert (G : forall m, m <= n -> let st := fold_left (outer_step equiv n) (seq 0 m) (repeat None n, 0) in
     forall k k', k < m -> k' < n -> Rel k k' -> nth k (fst st) None = nth k' (fst st) None).
  { induction m as [|m IH]; intros Hm; [simpl; intros; lia|].
    pose proof (type_loop_prefix m ltac:(lia)) as I.
    rewrite seq_S, fold_left_app. cbn [fold_left Nat.add].
    specialize (IH ltac:(lia)). cbv zeta in IH, I.
    destruct (fold_left (outer_step equiv n) (seq 0 m) (repeat None n, 0)) as [T c]. cbn [fst snd] in *.
    intros k k' Hk Hk' HR. unfold outer_step.
    destruct (nth m T None) as [v|] eqn:E.
    - cbn [fst snd]. rewrite !inner_loop_nth by (try lia; apply I).
      replace (m <? k) with false by (symmetry; apply Nat.ltb_ge; lia). cbn [andb].
      destruct (Nat.eq_dec k m) as [->|Nk].
      + destruct (Nat.ltb_spec m k'); cbn [andb].
        * rewrite equiv_complete by assumption. reflexivity.
        * destruct (Nat.eq_dec k' m) as [->|]; [reflexivity|].
          symmetry. apply IH; try lia. apply Rel_sym; try lia; assumption.
      + assert (Ekk : nth k T None = nth k' T None) by (apply IH; try lia; assumption).
        destruct (Nat.ltb_spec m k'); cbn [andb]; [|assumption].
        destruct (equiv m k') eqn:Eq; [|assumption].
        apply IH; try lia. apply (Rel_trans k k' m); try lia; [assumption|].
        apply Rel_sym; try lia. apply equiv_Rel; try lia; assumption.
    - cbn [fst snd]. rewrite !inner_loop_nth by (rewrite ?upd_length; try lia; apply I).
      rewrite !nth_upd, (it_len _ _ _ I).
      replace (m <? n) with true by (symmetry; apply Nat.ltb_lt; lia). rewrite !andb_true_r, Nat.eqb_refl.
      replace (m <? k) with false by (symmetry; apply Nat.ltb_ge; lia). cbn [andb].
      destruct (Nat.eqb_spec k m) as [->|Nk].
      + destruct (Nat.ltb_spec m k'); cbn [andb].
        * rewrite equiv_complete by assumption. reflexivity.
        * destruct (Nat.eqb_spec k' m) as [->|Nk']; [reflexivity|].
          (* k' < m and Rel m k': then T[k'] = T[m] = None, impossible *)
          exfalso. destruct (it_done _ _ _ I k' ltac:(lia)) as [v Ev].
          assert (nth k' T None = nth m T None) by (apply IH; try lia; apply Rel_sym; try lia; assumption).
          congruence.
      + assert (Ekk : nth k T None = nth k' T None) by (apply IH; try lia; assumption).
        destruct (Nat.ltb_spec m k'); cbn [andb].
        * destruct (equiv m k') eqn:Eq.
          -- (* Rel k m, so T[m] = T[k] <> None *)
             exfalso. destruct (it_done _ _ _ I k ltac:(lia)) as [v Ev].
             assert (nth k T None = nth m T None).
             { apply IH; try lia. apply (Rel_trans k k' m); try lia; [assumption|].
               apply Rel_sym; try lia. apply equiv_Rel; try lia; assumption. }
             congruence.
          -- destruct (Nat.eqb_spec k' m); [lia|assumption].
        * destruct (Nat.eqb_spec k' m) as [->|]; [|assumption].
          exfalso. destruct (it_done _ _ _ I k ltac:(lia)) as [v Ev]. congruence. }
  intros k k' Hk Hk' HR. apply (G n (le_n n)); assumption.
Qed.
End TypeLoop.

(* ---------- all_some ---------- *)
Lemma all_some_spec {A} (l : list (option A)) : (forall k, k < length l -> exists v, nth k l None = Some v) ->
  exists r, all_some l = Some r /\ map Some r = l.
Proof.
  induction l as [|o l IH]; intros H; simpl; [exists []; split; reflexivity|].
  destruct (H 0 ltac:(simpl; lia)) as [v Ev]. simpl in Ev. subst o.
  destruct IH as [r [Er Mr]]; [intros k Hk; apply (H (S k)); simpl; lia|].
  rewrite Er. exists (v :: r). simpl. rewrite Mr. split; reflexivity.
Qed.

(* ---------- the unit expansion is the identity ---------- *)
Lemma get_positions_unit cell p : get_positions cell p [1; 1; 1] = p.
Proof.
  unfold get_positions. cbn [rev app map seq product flat_map]. simpl.
  induction p as [|v p IH]; simpl; [reflexivity|]. rewrite IH. f_equal.
  unfold lattice_translation. simpl. destruct v. apply vec_eq; simpl; ring.
Qed.
Lemma get_attribute_unit {A} (l : list A) : get_attribute (length l) l [1; 1; 1] = Some l.
Proof.
  unfold get_attribute. rewrite expand_loop_spec by lia. simpl. f_equal.
  rewrite firstn_all. induction l; simpl; congruence.
Qed.
Lemma get_attribute_unit_longer {A} n (l : list A) : n <= length l -> get_attribute n l [1; 1; 1] = Some (firstn n l).
Proof.
  intros H. unfold get_attribute. rewrite expand_loop_spec by lia. simpl. f_equal.
  generalize (firstn n l). intros l'. induction l'; simpl; congruence.
Qed.

(* ---------- getter values ---------- *)
Section Values.
Variable inv : mat -> mat.

Definition coherent_ncell (s : structure) : Prop :=
  forall m, s_ncell s = Some m -> exists p, s_positions s = Some p /\ length p = m.

Lemma get_positions_value s p : eff s = Some p ->
  exists s', get_positions_of None s = Some (p, s') /\ s' = with_positions s (Some p).
Proof.
  unfold eff, get_positions_of, fill_positions, bind. destruct s as [c ma po sc pm pc ty nc nt np]; simpl.
  destruct po as [p0|]; simpl.
  - intros [= ->]. rewrite get_positions_unit. eexists; split; reflexivity.
  - destruct sc as [sc|]; simpl; [|discriminate]. intros [= <-]. rewrite get_positions_unit.
    eexists; split; reflexivity.
Qed.

Lemma set_get_positions s x : s_positions s = None -> is_inverse (inv (s_cell s)) (s_cell s) ->
  forall s', set_positions inv x s = Some (tt, s') ->
  exists s'', get_positions_of None s' = Some (x, s'').
Proof.
  intros Hp [_ Hi] s' [= <-].
  destruct (get_positions_value (with_scaled s (Some (map (fun p => vmul p (inv (s_cell s))) x))) x) as [s'' [E _]].
  - unfold eff. simpl. rewrite Hp. simpl. f_equal. rewrite map_map.
    rewrite <- (map_id x) at 2. apply map_ext. intros a. rewrite vmul_mmul, Hi. apply vmul_mid.
  - exists s''; exact E.
Qed.

Lemma set_get_scaled s x s' : set_positions inv x s = Some (tt, s') ->
  get_scaled inv s' = Some (map (fun p => vmul p (inv (s_cell s))) x, s').
Proof. intros [= <-]. reflexivity. Qed.

Lemma no_cartesian_step o s s' : no_cartesian o = true -> s_positions s = None -> s_scaled s <> None ->
  sstep inv o s = Some s' -> s_positions s' = None /\ s_scaled s' <> None.
Proof.
  intros Ho Hp Hs. destruct s as [c ma po sc pm pc ty nc nt np]; simpl in *; subst po.
  destruct sc as [sc|]; [|congruence].
  destruct o; simpl in Ho; try discriminate; unfold sstep; simpl;
    try (intros [= <-]; simpl; split; [reflexivity|discriminate]).
  - destruct pm; simpl; intros [= <-]; simpl; split; (reflexivity || discriminate).
  - unfold get_pcell, get_pmat, bind; simpl. destruct pc; simpl; [intros [= <-]; simpl; split; (reflexivity || discriminate)|].
    destruct pm; simpl; intros [= <-]; simpl; split; (reflexivity || discriminate).
Qed.
Lemma no_cartesian_run h : forall s s', forallb no_cartesian h = true -> s_positions s = None -> s_scaled s <> None ->
  srun inv h s = Some s' -> s_positions s' = None /\ s_scaled s' <> None.
Proof.
  induction h as [|o h IH]; intros s s' Hh Hp Hs; simpl.
  - intros [= <-]; split; assumption.
  - simpl in Hh. apply andb_true_iff in Hh as [Ho Hh]. destruct (sstep inv o s) as [s1|] eqn:E; [|discriminate].
    destruct (no_cartesian_step o s s1 Ho Hp Hs E) as [A1 A2]. intros H. eapply IH; eassumption.
Qed.

Lemma set_positions_visible_partial :
  forall cell masses scaled pmat h x s1 s2,
  forallb no_cartesian h = true ->
  srun inv h (new_structure cell masses None (Some scaled) pmat) = Some s1 ->
  is_inverse (inv (s_cell s1)) (s_cell s1) ->
  set_positions inv x s1 = Some (tt, s2) ->
  exists s3, get_positions_of None s2 = Some (x, s3).
Proof.
  intros cell masses scaled pmat h x s1 s2 Hh Hr Hi Hs.
  destruct (no_cartesian_run h (new_structure cell masses None (Some scaled) pmat) s1 Hh eq_refl ltac:(discriminate) Hr) as [Hp _].
  eapply set_get_positions; eassumption.
Qed.

Lemma set_positions_stale :
  forall cell masses p x scaled pmat, p <> x ->
  exists s1 s2 s3,
  srun inv [GetPositions None] (new_structure cell masses (Some p) scaled pmat) = Some s1 /\
  set_positions inv x s1 = Some (tt, s2) /\
  get_positions_of None s2 = Some (p, s3).
Proof.
  intros. exists (new_structure cell masses (Some p) scaled pmat). eexists. eexists.
  split; [reflexivity|]. split; [reflexivity|].
  unfold get_positions_of, bind. simpl. rewrite get_positions_unit. reflexivity.
Qed.

(* --- general: every history preserves ncell coherence --- *)
Lemma get_positions_of_state sc s v s' : get_positions_of sc s = Some (v, s') ->
  exists p, eff s = Some p /\ s' = with_positions s (Some p) /\ (sc = None -> v = p).
Proof.
  unfold get_positions_of, bind, fill_positions, eff. destruct s as [c ma po sca pm pc ty nc nt np]; simpl.
  destruct po as [p|]; [|destruct sca as [q|]; [|discriminate]]; simpl.
  - intros [= <- <-]. exists p. split; [reflexivity|]. split; [reflexivity|]. intros ->. apply get_positions_unit.
  - intros [= <- <-]. eexists. split; [reflexivity|]. split; [reflexivity|]. intros ->. apply get_positions_unit.
Qed.

Lemma eff_with_positions s p : eff (with_positions s (Some p)) = Some p.
Proof. reflexivity. Qed.

(** The type list a structure with these data must report (no caches involved). *)
Definition types_of (pcell : mat) (p : list vec) (masses : list R) : option (list nat) :=
  if length masses <? length p then None
  else all_some (fst (type_loop (equiv_test inv pcell p (firstn (length p) masses)) (length p))).

Record Inv (cell : mat) (masses : list R) (p : list vec) (P : mat) (s : structure) : Prop := {
  I_cell : s_cell s = cell;
  I_masses : s_masses s = masses;
  I_eff : eff s = Some p;
  I_pmat : s_pmat s = Some P;
  I_pcell : forall m, s_pcell s = Some m -> m = mT (mmul (mT cell) P);
  I_types : forall t, s_types s = Some t -> types_of (mT (mmul (mT cell) P)) p masses = Some t;
  I_ncell : forall m, s_ncell s = Some m -> m = length p;
  I_nt : forall m, s_ntypes s = Some m -> exists t, types_of (mT (mmul (mT cell) P)) p masses = Some t /\ m = count_distinct t;
  I_np : forall m, s_nprim s = Some m -> exists t, types_of (mT (mmul (mT cell) P)) p masses = Some t /\ m = count_distinct t
}.

Lemma types_of_length pc p masses t : types_of pc p masses = Some t -> length t = length p.
Proof.
  unfold types_of. destruct (_ <? _); [discriminate|].
  intros H. assert (L : length (fst (type_loop (equiv_test inv pc p (firstn (length p) masses)) (length p))) = length p).
  { pose proof (type_loop_inv (equiv_test inv pc p (firstn (length p) masses)) (length p) (fun _ _ => True)) as I.
    apply I; auto. }
  rewrite <- L. revert H. generalize (fst (type_loop (equiv_test inv pc p (firstn (length p) masses)) (length p))).
  intros l. revert t. induction l as [|[a|] l IH]; intros t; simpl; try discriminate.
  - intros [= <-]; reflexivity.
  - destruct (all_some l) as [r|]; [|discriminate]. intros [= <-]. simpl. rewrite (IH r eq_refl). reflexivity.
Qed.

Section Fixed.
Variables (cell : mat) (masses : list R) (p : list vec) (P : mat).
Local Notation INV := (Inv cell masses p P).
Local Notation PC := (mT (mmul (mT cell) P)).

Lemma Inv_positions s v s' : INV s -> get_positions_of None s = Some (v, s') -> v = p /\ INV s'.
Proof.
  intros I H. apply get_positions_of_state in H as [q [E [-> Hv]]]. rewrite (I_eff _ _ _ _ _ I) in E.
  injection E as <-. split; [apply Hv; reflexivity|]. destruct I. split; simpl; try assumption. reflexivity.
Qed.
Lemma Inv_positions_any sc s v s' : INV s -> get_positions_of sc s = Some (v, s') -> INV s'.
Proof.
  intros I H. apply get_positions_of_state in H as [q [E [-> Hv]]]. rewrite (I_eff _ _ _ _ _ I) in E.
  injection E as <-. destruct I. split; simpl; try assumption. reflexivity.
Qed.
Lemma Inv_positions_ok s : INV s -> exists s', get_positions_of None s = Some (p, s') /\ INV s'.
Proof.
  intros I. destruct (get_positions_value s p (I_eff _ _ _ _ _ I)) as [s' [E ->]].
  eexists; split; [exact E|]. eapply Inv_positions; eassumption.
Qed.
Lemma Inv_ncell s : INV s -> exists s', get_ncell s = Some (length p, s') /\ INV s'.
Proof.
  intros I. unfold get_ncell. destruct (s_ncell s) as [m|] eqn:E.
  - rewrite (I_ncell _ _ _ _ _ I m E). exists s. split; [reflexivity|assumption].
  - unfold bind. destruct (Inv_positions_ok s I) as [s' [-> I']]. eexists; split; [reflexivity|].
    destruct I'. split; simpl; try assumption. intros m [= <-]; reflexivity.
Qed.
Lemma Inv_pcell s : INV s -> exists s', get_pcell inv s = Some (PC, s') /\ INV s'.
Proof.
  intros I. unfold get_pcell. destruct (s_pcell s) as [m|] eqn:E.
  - rewrite (I_pcell _ _ _ _ _ I m E). exists s; split; [reflexivity|assumption].
  - unfold bind, get_pmat. rewrite (I_pmat _ _ _ _ _ I), (I_cell _ _ _ _ _ I).
    eexists; split; [reflexivity|]. destruct I. split; simpl; try assumption. intros m [= <-]; reflexivity.
Qed.
Lemma Inv_pmat s : INV s -> get_pmat inv s = Some (P, s).
Proof. intros I. unfold get_pmat. rewrite (I_pmat _ _ _ _ _ I). reflexivity. Qed.
Lemma Inv_masses s : INV s ->
  (length masses < length p -> get_masses None s = None) /\
  (length p <= length masses -> exists s', get_masses None s = Some (firstn (length p) masses, s') /\ INV s').
Proof.
  intros I. unfold get_masses, bind. destruct (Inv_ncell s I) as [s' [-> I']].
  rewrite (I_masses _ _ _ _ _ I'). split; intros H.
  - rewrite get_attribute_short by assumption. reflexivity.
  - rewrite get_attribute_unit_longer by assumption. exists s'. split; [reflexivity|assumption].
Qed.
Lemma Inv_masses_any sc s v s' : INV s -> get_masses sc s = Some (v, s') -> INV s'.
Proof.
  intros I. unfold get_masses, bind. destruct (Inv_ncell s I) as [s1 [-> I']].
  destruct sc as [[[a b] c]|]; destruct (get_attribute _ _ _); intros E; try discriminate; injection E as _ <-; assumption.
Qed.
Lemma Inv_types s : INV s ->
  match types_of PC p masses with
  | None => get_types inv None s = None
  | Some t => exists s', get_types inv None s = Some (t, s') /\ INV s' /\ s_types s' = Some t
  end.
Proof.
  intros I. remember (get_types inv None s) as r eqn:Er.
  unfold get_types in Er. unfold bind at 1 in Er. destruct (Inv_masses s I) as [M1 M2].
  destruct (le_lt_dec (length p) (length masses)) as [L|L].
  - destruct (M2 L) as [s1 [E1 I1]]. clear M1 M2. rewrite E1 in Er. unfold bind at 1 in Er.
    destruct (s_types s1) as [t|] eqn:Et.
    + rewrite (I_types _ _ _ _ _ I1 t Et). unfold bind in Er. destruct (Inv_ncell s1 I1) as [s2 [E2 I2]].
      rewrite E2 in Er. assert (H : s_types s2 = Some t).
      { unfold get_ncell in E2. destruct (s_ncell s1); [injection E2 as _ <-; assumption|].
        unfold bind in E2. destruct (get_positions_of None s1) as [[v s3]|] eqn:E3; [|discriminate].
        apply get_positions_of_state in E3 as [q [_ [-> _]]]. injection E2 as _ <-. assumption. }
      rewrite H in Er. rewrite <- (types_of_length _ _ _ _ (I_types _ _ _ _ _ I1 t Et)), get_attribute_unit in Er.
      exists s2. split; [exact Er|]. split; assumption.
    + unfold bind at 1 2 in Er. destruct (Inv_pcell s1 I1) as [s2 [E2 I2]]. rewrite E2 in Er. unfold bind at 1 in Er.
      destruct (Inv_ncell s2 I2) as [s3 [E3 I3]]. rewrite E3 in Er. unfold bind at 1 in Er.
      destruct (Inv_positions_ok s3 I3) as [s4 [E4 I4]]. rewrite E4 in Er.
      destruct (types_of PC p masses) as [t|] eqn:ET.
      * assert (ET' := ET). unfold types_of in ET'. replace (length masses <? length p) with false in ET' by (symmetry; apply Nat.ltb_ge; lia).
        rewrite ET' in Er.
        assert (I5 : INV (with_types s4 (Some t))).
        { destruct I4. split; simpl; try assumption. intros t' [= <-]; assumption. }
        unfold bind in Er. destruct (Inv_ncell _ I5) as [s6 [E6 I6]]. rewrite E6 in Er.
        assert (H : s_types s6 = Some t).
        { unfold get_ncell in E6. destruct (s_ncell (with_types s4 (Some t))); [injection E6 as _ <-; reflexivity|].
          unfold bind in E6. destruct (get_positions_of None (with_types s4 (Some t))) as [[v s7]|] eqn:E7; [|discriminate].
          apply get_positions_of_state in E7 as [q [_ [-> _]]]. injection E6 as _ <-. reflexivity. }
        rewrite H in Er. rewrite <- (types_of_length _ _ _ _ ET), get_attribute_unit in Er.
        exists s6. split; [exact Er|]. split; assumption.
      * unfold types_of in ET. replace (length masses <? length p) with false in ET by (symmetry; apply Nat.ltb_ge; lia).
        rewrite ET in Er. exact Er.
  - rewrite (M1 L) in Er. unfold types_of. replace (length masses <? length p) with true by (symmetry; apply Nat.ltb_lt; lia).
    exact Er.
Qed.
Lemma Inv_ntypes s : INV s ->
  match types_of PC p masses with
  | None => get_ntypes inv s = None
  | Some t => exists s', get_ntypes inv s = Some (count_distinct t, s') /\ INV s'
  end.
Proof.
  intros I. unfold get_ntypes. destruct (s_ntypes s) as [m|] eqn:E.
  - destruct (I_nt _ _ _ _ _ I m E) as [t [Et ->]]. rewrite Et. exists s. split; [reflexivity|assumption].
  - unfold bind. pose proof (Inv_types s I) as HT. destruct (types_of PC p masses) as [t|] eqn:ET.
    + destruct HT as [s' [-> [I' _]]]. eexists; split; [reflexivity|].
      destruct I'. split; simpl; try assumption. intros m [= <-]. exists t; split; [assumption|reflexivity].
    + rewrite HT. reflexivity.
Qed.
Lemma Inv_nprim s : INV s ->
  match types_of PC p masses with
  | None => get_nprim inv s = None
  | Some t => exists s', get_nprim inv s = Some (count_distinct t, s') /\ INV s'
  end.
Proof.
  intros I. unfold get_nprim. destruct (s_nprim s) as [m|] eqn:E.
  - destruct (I_np _ _ _ _ _ I m E) as [t [Et ->]]. rewrite Et. exists s. split; [reflexivity|assumption].
  - unfold bind. pose proof (Inv_types s I) as HT. destruct (types_of PC p masses) as [t|] eqn:ET.
    + destruct HT as [s' [-> [I' _]]]. eexists; split; [reflexivity|].
      destruct I'. split; simpl; try assumption. intros m [= <-]. exists t; split; [assumption|reflexivity].
    + rewrite HT. reflexivity.
Qed.
Lemma Inv_scaled s v s' : INV s -> get_scaled inv s = Some (v, s') -> INV s'.
Proof.
  intros I. unfold get_scaled. destruct (s_scaled s) as [q|] eqn:E; [intros [= _ <-]; assumption|].
  unfold bind. destruct (Inv_positions_ok s I) as [s1 [E1 I1]]. rewrite E1. intros [= _ <-].
  apply get_positions_of_state in E1 as [q [Eq [-> _]]].
  destruct I1. split; simpl in *; try assumption.
Qed.

Lemma Inv_step o s s' : plain_getter o = true -> INV s -> sstep inv o s = Some s' -> INV s'.
Proof.
  intros Ho I. destruct o; simpl in Ho; try discriminate; unfold sstep.
  - destruct (get_positions_of sc s) as [[v s1]|] eqn:E; [|discriminate]. intros [= <-]. eapply Inv_positions_any; eassumption.
  - destruct (get_scaled inv s) as [[v s1]|] eqn:E; [|discriminate]. intros [= <-]. eapply Inv_scaled; eassumption.
  - destruct (get_masses sc s) as [[v s1]|] eqn:E; [|discriminate]. intros [= <-]. eapply Inv_masses_any; eassumption.
  - rewrite (Inv_pmat s I). intros [= <-]; assumption.
  - destruct (Inv_pcell s I) as [s1 [-> I1]]. intros [= <-]; assumption.
  - destruct sc; [discriminate|]. pose proof (Inv_types s I) as HT. destruct (types_of PC p masses).
    + destruct HT as [s1 [-> [I1 _]]]. intros [= <-]; assumption.
    + rewrite HT. discriminate.
  - pose proof (Inv_ntypes s I) as HT. destruct (types_of PC p masses).
    + destruct HT as [s1 [-> I1]]. intros [= <-]; assumption.
    + rewrite HT. discriminate.
  - pose proof (Inv_nprim s I) as HT. destruct (types_of PC p masses).
    + destruct HT as [s1 [-> I1]]. intros [= <-]; assumption.
    + rewrite HT. discriminate.
  - destruct (Inv_ncell s I) as [s1 [-> I1]]. intros [= <-]; assumption.
Qed.
Lemma Inv_run h : forall s s', forallb plain_getter h = true -> INV s -> srun inv h s = Some s' -> INV s'.
Proof.
  induction h as [|o h IH]; intros s s' Hh I; simpl; [intros [= <-]; assumption|].
  simpl in Hh. apply andb_true_iff in Hh as [Ho Hh].
  destruct (sstep inv o s) as [s1|] eqn:E; [|discriminate]. apply IH; [assumption|].
  eapply Inv_step; eassumption.
Qed.
End Fixed.

(* ---- every reachable state has a coherent atom count ---- *)
Lemma coh_positions sc s v s' : coherent_ncell s -> get_positions_of sc s = Some (v, s') -> coherent_ncell s' /\ (sc = None -> s_positions s' = Some v).
Proof.
  intros C H. apply get_positions_of_state in H as [q [E [-> Hv]]]. split.
  - intros m Hm. simpl in *. destruct (C m Hm) as [p [Ep Lp]]. unfold eff in E. rewrite Ep in E. injection E as <-.
    exists p; split; [reflexivity|assumption].
  - intros ->. simpl. f_equal. symmetry; apply Hv; reflexivity.
Qed.
Lemma coh_ncell s v s' : coherent_ncell s -> get_ncell s = Some (v, s') -> coherent_ncell s'.
Proof.
  intros C. unfold get_ncell. destruct (s_ncell s); [intros [= _ <-]; assumption|].
  unfold bind. destruct (get_positions_of None s) as [[p s1]|] eqn:E; [|discriminate]. intros [= _ <-].
  destruct (coh_positions None s p s1 C E) as [_ H]. intros m Hm. simpl in *. injection Hm as <-.
  exists p. split; [apply H; reflexivity|reflexivity].
Qed.
Ltac coh_easy C := let m := fresh in let Hm := fresh in intros m Hm; apply C; exact Hm.
Lemma coh_pmat s v s' : coherent_ncell s -> get_pmat inv s = Some (v, s') -> coherent_ncell s'.
Proof. intros C. unfold get_pmat. destruct (s_pmat s); intros [= _ <-]; [assumption|coh_easy C]. Qed.
Lemma coh_pcell s v s' : coherent_ncell s -> get_pcell inv s = Some (v, s') -> coherent_ncell s'.
Proof.
  intros C. unfold get_pcell. destruct (s_pcell s); [intros [= _ <-]; assumption|]. unfold bind.
  destruct (get_pmat inv s) as [[m s1]|] eqn:E; [|discriminate]. intros [= _ <-].
  assert (C1 := coh_pmat _ _ _ C E). coh_easy C1.
Qed.
Lemma coh_masses sc s v s' : coherent_ncell s -> get_masses sc s = Some (v, s') -> coherent_ncell s'.
Proof.
  intros C. unfold get_masses, bind. destruct (get_ncell s) as [[n s1]|] eqn:E; [|discriminate].
  assert (C1 := coh_ncell _ _ _ C E).
  destruct sc as [[[a b] c]|]; destruct (get_attribute _ _ _); intros H; try discriminate; injection H as _ <-; assumption.
Qed.
Lemma coh_types sc s v s' : coherent_ncell s -> get_types inv sc s = Some (v, s') -> coherent_ncell s'.
Proof.
  intros C. unfold get_types. unfold bind at 1.
  destruct (get_masses sc s) as [[ms s1]|] eqn:E1; [|discriminate]. assert (C1 := coh_masses _ _ _ _ C E1).
  unfold bind at 1. destruct (s_types s1) as [t|].
  - unfold bind. destruct (get_ncell s1) as [[n s2]|] eqn:E2; [|discriminate]. assert (C2 := coh_ncell _ _ _ C1 E2).
    destruct (s_types s2); [|discriminate].
    destruct sc as [[[a b] c]|]; destruct (get_attribute _ _ _); intros H; try discriminate; injection H as _ <-; assumption.
  - unfold bind at 1 2. destruct (get_pcell inv s1) as [[pc s2]|] eqn:E2; [|discriminate]. assert (C2 := coh_pcell _ _ _ C1 E2).
    unfold bind at 1. destruct (get_ncell s2) as [[n s3]|] eqn:E3; [|discriminate]. assert (C3 := coh_ncell _ _ _ C2 E3).
    unfold bind at 1. destruct (get_positions_of None s3) as [[po s4]|] eqn:E4; [|discriminate].
    destruct (coh_positions _ _ _ _ C3 E4) as [C4 _].
    destruct (all_some _) as [t|]; [|discriminate].
    assert (C5 : coherent_ncell (with_types s4 (Some t))) by coh_easy C4.
    unfold bind. destruct (get_ncell (with_types s4 (Some t))) as [[n' s6]|] eqn:E6; [|discriminate].
    assert (C6 := coh_ncell _ _ _ C5 E6). destruct (s_types s6); [|discriminate].
    destruct sc as [[[a b] c]|]; destruct (get_attribute _ _ _); intros H; try discriminate; injection H as _ <-; assumption.
Qed.
Lemma coh_step o s s' : coherent_ncell s -> sstep inv o s = Some s' -> coherent_ncell s'.
Proof.
  intros C. destruct o; unfold sstep; try (intros [= <-]; coh_easy C).
  - destruct (get_positions_of sc s) as [[v s1]|] eqn:E; [|discriminate]. intros [= <-]. eapply coh_positions; eassumption.
  - unfold get_scaled. destruct (s_scaled s); [intros [= <-]; assumption|]. unfold bind.
    destruct (get_positions_of None s) as [[v s1]|] eqn:E; [|discriminate]. intros [= <-].
    destruct (coh_positions _ _ _ _ C E) as [C1 _]. coh_easy C1.
  - destruct (get_masses sc s) as [[v s1]|] eqn:E; [|discriminate]. intros [= <-]. eapply coh_masses; eassumption.
  - destruct (get_pmat inv s) as [[v s1]|] eqn:E; [|discriminate]. intros [= <-]. eapply coh_pmat; eassumption.
  - destruct (get_pcell inv s) as [[v s1]|] eqn:E; [|discriminate]. intros [= <-]. eapply coh_pcell; eassumption.
  - destruct (get_types inv sc s) as [[v s1]|] eqn:E; [|discriminate]. intros [= <-]. eapply coh_types; eassumption.
  - unfold get_ntypes. destruct (s_ntypes s); [intros [= <-]; assumption|]. unfold bind.
    destruct (get_types inv None s) as [[v s1]|] eqn:E; [|discriminate]. intros [= <-].
    assert (C1 := coh_types _ _ _ _ C E). coh_easy C1.
  - unfold get_nprim. destruct (s_nprim s); [intros [= <-]; assumption|]. unfold bind.
    destruct (get_types inv None s) as [[v s1]|] eqn:E; [|discriminate]. intros [= <-].
    assert (C1 := coh_types _ _ _ _ C E). coh_easy C1.
  - destruct (get_ncell s) as [[v s1]|] eqn:E; [|discriminate]. intros [= <-]. eapply coh_ncell; eassumption.
Qed.
Lemma coh_run h : forall s s', coherent_ncell s -> srun inv h s = Some s' -> coherent_ncell s'.
Proof.
  induction h as [|o h IH]; intros s s' C; simpl; [intros [= <-]; assumption|].
  destruct (sstep inv o s) as [s1|] eqn:E; [|discriminate]. apply IH. eapply coh_step; eassumption.
Qed.

Lemma Inv_intro s P p : coherent_ncell s -> eff s = Some p ->
  Inv (s_cell s) (s_masses s) p P (with_pcell (with_types (with_nprim (with_ntypes (with_pmat s (Some P)) None) None) None) None).
Proof.
  intros C E. split; simpl; try reflexivity; try discriminate.
  - exact E.
  - intros m Hm. destruct (C m Hm) as [q [Eq Lq]]. unfold eff in E. rewrite Eq in E. injection E as <-. congruence.
Qed.
Lemma Inv_fresh s P p : eff s = Some p ->
  Inv (s_cell s) (s_masses s) p P (new_structure (s_cell s) (s_masses s) (s_positions s) (s_scaled s) (Some P)).
Proof. intros E. split; simpl; try reflexivity; try discriminate. exact E. Qed.

Lemma set_primitive_fresh_partial :
  forall c0 m0 p0 q0 pm0 h0 s0 P s1 h s2 p,
  srun inv h0 (new_structure c0 m0 p0 q0 pm0) = Some s0 ->
  eff s0 = Some p ->
  sstep inv (SetPrimitive P) s0 = Some s1 ->
  forallb plain_getter h = true -> srun inv h s1 = Some s2 ->
  let fresh := new_structure (s_cell s0) (s_masses s0) (s_positions s0) (s_scaled s0) (Some P) in
  value (get_pcell inv) s2 = Some (mmul (mT P) (s_cell s0)) /\
  value (get_pcell inv) s2 = value (get_pcell inv) fresh /\
  value (get_types inv None) s2 = value (get_types inv None) fresh /\
  value (get_ntypes inv) s2 = value (get_ntypes inv) fresh /\
  value (get_nprim inv) s2 = value (get_nprim inv) fresh.
Proof.
  intros c0 m0 p0 q0 pm0 h0 s0 P s1 h s2 p R0 E [= <-] Hh R2 fresh.
  assert (C0 : coherent_ncell s0) by (eapply coh_run; [|exact R0]; intros m; discriminate).
  assert (I1 := Inv_intro s0 P p C0 E).
  assert (I2 := Inv_run _ _ _ _ h _ s2 Hh I1 R2).
  assert (IF := Inv_fresh s0 P p E : Inv _ _ _ _ fresh).
  unfold value.
  destruct (Inv_pcell _ _ _ _ _ I2) as [a [-> _]]. destruct (Inv_pcell _ _ _ _ _ IF) as [b [-> _]].
  split; [simpl; f_equal; rewrite mT_mmul, mT_mT; reflexivity|]. split; [reflexivity|].
  pose proof (Inv_types _ _ _ _ _ I2) as T2. pose proof (Inv_types _ _ _ _ _ IF) as TF.
  pose proof (Inv_ntypes _ _ _ _ _ I2) as N2. pose proof (Inv_ntypes _ _ _ _ _ IF) as NF.
  pose proof (Inv_nprim _ _ _ _ _ I2) as Q2. pose proof (Inv_nprim _ _ _ _ _ IF) as QF.
  destruct (types_of (mT (mmul (mT (s_cell s0)) P)) p (s_masses s0)) as [t|].
  - destruct T2 as [? [-> _]], TF as [? [-> _]], N2 as [? [-> _]], NF as [? [-> _]], Q2 as [? [-> _]], QF as [? [-> _]].
    repeat split.
  - rewrite T2, TF, N2, NF, Q2, QF. repeat split.
Qed.

(** objects that hold no positions at all: every query of atoms fails, before and after *)
Definition Empty (c : mat) (P : mat) (s : structure) : Prop :=
  s_cell s = c /\ s_pmat s = Some P /\ s_positions s = None /\ s_scaled s = None /\ s_ncell s = None /\ s_types s = None /\ s_ntypes s = None /\ s_nprim s = None /\
  (s_pcell s = None \/ s_pcell s = Some (mT (mmul (mT c) P))).
Lemma Empty_queries c P s : Empty c P s ->
  (exists s', get_pcell inv s = Some (mT (mmul (mT c) P), s') /\ Empty c P s') /\ get_pmat inv s = Some (P, s) /\ (forall sc, get_types inv sc s = None) /\ get_ntypes inv s = None /\ get_nprim inv s = None /\
  (forall sc, get_positions_of sc s = None) /\ get_scaled inv s = None /\ get_ncell s = None /\ forall sc, get_masses sc s = None.
Proof.
  intros (A1 & A2 & A3 & A4 & A5 & A6 & A7 & A8 & A9).
  assert (G : forall sc, get_positions_of sc s = None) by (intros sc; unfold get_positions_of, bind, fill_positions; rewrite A3, A4; reflexivity).
  assert (N : get_ncell s = None) by (unfold get_ncell; rewrite A5; unfold bind; rewrite G; reflexivity).
  assert (M : forall sc, get_masses sc s = None) by (intros sc; unfold get_masses, bind; rewrite N; reflexivity).
  assert (T : forall sc, get_types inv sc s = None) by (intros sc; unfold get_types, bind; rewrite M; reflexivity).
  split; [|split; [|split; [exact T|split; [|split; [|split; [exact G|split; [|split; [exact N|exact M]]]]]]]].
  - unfold get_pcell. destruct A9 as [E|E]; rewrite E.
    + unfold bind, get_pmat. rewrite A2, A1. eexists. split; [reflexivity|]. unfold Empty, with_pcell. cbn. rewrite A1. auto 10.
    + eexists. split; [reflexivity|]. unfold Empty. auto 10.
  - unfold get_pmat. rewrite A2. reflexivity.
  - unfold get_ntypes. rewrite A7. unfold bind. rewrite T. reflexivity.
  - unfold get_nprim. rewrite A8. unfold bind. rewrite T. reflexivity.
  - unfold get_scaled. rewrite A4. unfold bind. rewrite G. reflexivity.
Qed.
Lemma Empty_run c P h : forall s s', forallb plain_getter h = true -> Empty c P s -> srun inv h s = Some s' -> Empty c P s'.
Proof.
  induction h as [|o h IH]; intros s s' Hh E R; [injection R as <-; exact E|]. cbn [forallb] in Hh. apply andb_prop in Hh as [Ho Hh].
  destruct (Empty_queries c P s E) as ((sp & Q1 & Ep) & Q2 & Q3 & Q4 & Q5 & Q6 & Q7 & Q8 & Q9). cbn [srun] in R.
  destruct o; try discriminate Ho; cbn [sstep] in R.
  - rewrite Q6 in R. discriminate.
  - rewrite Q7 in R. discriminate.
  - rewrite Q9 in R. discriminate.
  - rewrite Q2 in R. exact (IH _ _ Hh E R).
  - rewrite Q1 in R. exact (IH _ _ Hh Ep R).
  - rewrite Q3 in R. discriminate.
  - rewrite Q4 in R. discriminate.
  - rewrite Q5 in R. discriminate.
  - rewrite Q8 in R. discriminate.
Qed.
Lemma set_primitive_fresh :
  forall c0 m0 p0 q0 pm0 h0 s0 P s1 h s2,
  srun inv h0 (new_structure c0 m0 p0 q0 pm0) = Some s0 ->
  sstep inv (SetPrimitive P) s0 = Some s1 ->
  forallb plain_getter h = true -> srun inv h s1 = Some s2 ->
  let fresh := new_structure (s_cell s0) (s_masses s0) (s_positions s0) (s_scaled s0) (Some P) in
  value (get_pcell inv) s2 = Some (mmul (mT P) (s_cell s0)) /\
  value (get_pcell inv) s2 = value (get_pcell inv) fresh /\
  value (get_types inv None) s2 = value (get_types inv None) fresh /\
  value (get_ntypes inv) s2 = value (get_ntypes inv) fresh /\
  value (get_nprim inv) s2 = value (get_nprim inv) fresh.
Proof.
  intros c0 m0 p0 q0 pm0 h0 s0 P s1 h s2 R0 S1 Hh R2. destruct (eff s0) as [p|] eqn:E; [eapply set_primitive_fresh_partial; eassumption|]. intros fresh.
  assert (C0 : coherent_ncell s0) by (eapply coh_run; [|exact R0]; intros m; discriminate).
  unfold eff in E. destruct (s_positions s0) as [x|] eqn:Ep; [discriminate|]. destruct (s_scaled s0) as [x|] eqn:Es; [discriminate|].
  assert (En : s_ncell s0 = None). { destruct (s_ncell s0) as [m|] eqn:En; [|reflexivity]. destruct (C0 m En) as (q & Hq & _). congruence. }
  assert (I1 : Empty (s_cell s0) P s1). { cbn in S1. injection S1 as <-. unfold Empty. cbn. auto 12. }
  assert (I2 := Empty_run _ _ h _ _ Hh I1 R2). assert (IF : Empty (s_cell s0) P fresh) by (unfold fresh, Empty, new_structure; cbn; auto 12).
  destruct (Empty_queries _ _ _ I2) as ((a & A1 & _) & _ & A3 & A4 & A5 & _). destruct (Empty_queries _ _ _ IF) as ((b & B1 & _) & _ & B3 & B4 & B5 & _).
  unfold value. rewrite A1, B1, A3, B3, A4, B4, A5, B5. cbn [option_map fst]. rewrite mT_mmul, mT_mT. repeat split.
Qed.

Lemma set_cell_stale_primitive :
  forall cell cell' P masses p, mmul (mT P) cell <> mmul (mT P) cell' ->
  exists s1, srun inv [GetPrimitiveCell; SetCell cell'] (new_structure cell masses (Some p) None (Some P)) = Some s1 /\
  value (get_pcell inv) s1 = Some (mmul (mT P) cell) /\
  value (get_pcell inv) s1 <> value (get_pcell inv) (new_structure cell' masses (Some p) None (Some P)).
Proof.
  intros cell cell' P masses p N. eexists. split; [reflexivity|].
  unfold value; simpl. rewrite !mT_mmul, !mT_mT. split; [reflexivity|]. intros E. apply N. assert (J : forall a b : mat, Some a = Some b -> a = b) by (intros a b Eab; injection Eab; auto). apply J, E.
Qed.

(* --- C05: specification of the type list --- *)
Lemma In_nth_lt {A} (l : list A) v d : In v l <-> exists k, k < length l /\ nth k l d = v.
Proof.
  split.
  - intros H. apply (In_nth l v d) in H as [k [Hk E]]. exists k; split; assumption.
  - intros [k [Hk <-]]. apply nth_In; assumption.
Qed.

Lemma count_distinct_range (t : list nat) c : (forall v, In v t <-> v < c) -> count_distinct t = c.
Proof.
  intros H. unfold count_distinct. rewrite <- (seq_length c 0).
  assert (NoDup (nodup Nat.eq_dec t)) by apply NoDup_nodup.
  assert (I1 : incl (nodup Nat.eq_dec t) (seq 0 c)).
  { intros v Hv. apply nodup_In, H in Hv. apply in_seq; lia. }
  assert (I2 : incl (seq 0 c) (nodup Nat.eq_dec t)).
  { intros v Hv. apply in_seq in Hv. apply nodup_In, H; lia. }
  apply NoDup_incl_length in I1; [|assumption]. apply NoDup_incl_length in I2; [|apply seq_NoDup]. lia.
Qed.

Lemma map_Some_nth (t : list nat) k v : nth k (map Some t) None = Some v <-> k < length t /\ nth k t 0 = v.
Proof.
  split.
  - intros H. destruct (lt_dec k (length t)) as [L|L].
    + split; [assumption|]. rewrite (nth_indep _ None (Some 0)) in H by (rewrite map_length; assumption).
      rewrite (map_nth Some t 0 k) in H. injection H as ->; reflexivity.
    + rewrite nth_overflow in H by (rewrite map_length; lia). discriminate.
  - intros [L <-]. rewrite (nth_indep _ None (Some 0)) by (rewrite map_length; assumption). apply (map_nth Some t 0 k).
Qed.

Lemma types_spec pc p masses : length masses = length p ->
  exists t, types_of pc p masses = Some t /\ length t = length p /\
  (forall v, In v t <-> v < count_distinct t) /\
  (p <> [] -> nth 0 t 0 = 0) /\
  (forall i j, i < length p -> j < length p -> nth i t 0 = nth j t 0 -> nth i masses 0%R = nth j masses 0%R) /\
  ((forall i j k, i < length p -> j < length p -> k < length p ->
      same_site inv pc (nth i p vzero) (nth j p vzero) = true ->
      same_site inv pc (nth j p vzero) (nth k p vzero) = true ->
      same_site inv pc (nth i p vzero) (nth k p vzero) = true) ->
   (forall i j, i < length p -> j < length p ->
      same_site inv pc (nth i p vzero) (nth j p vzero) = same_site inv pc (nth j p vzero) (nth i p vzero)) ->
   (forall i, i < length p -> same_site inv pc (nth i p vzero) (nth i p vzero) = true) ->
   forall i j, i < length p -> j < length p ->
   (nth i t 0 = nth j t 0 <->
    same_site inv pc (nth i p vzero) (nth j p vzero) = true /\ nth i masses 0%R = nth j masses 0%R)).
Proof.
  intros HL. unfold types_of. replace (firstn (length p) masses) with masses by (rewrite <- HL; symmetry; apply firstn_all).
  replace (length masses <? length p) with false by (symmetry; apply Nat.ltb_ge; lia).
  set (n := length p). set (eq := equiv_test inv pc p masses).
  assert (Em : forall i j, eq i j = true -> nth i masses 0%R = nth j masses 0%R).
  { intros i j H. unfold eq, equiv_test, masses_equal in H. apply andb_true_iff in H as [_ H].
    destruct (Req_EM_T _ _); [assumption|discriminate]. }
  pose proof (type_loop_inv eq n (fun i j => nth i masses 0%R = nth j masses 0%R)) as I.
  assert (I' := I ltac:(intros; reflexivity) ltac:(cbv beta; intros; symmetry; assumption) ltac:(cbv beta; intros; etransitivity; eassumption) ltac:(cbv beta; intros; apply Em; assumption)).
  clear I. rename I' into I.
  destruct (all_some_spec (fst (type_loop eq n))) as [t [Et Mt]].
  { intros k Hk. apply (it_done _ _ _ _ _ I). rewrite (it_len _ _ _ _ _ I) in Hk. exact Hk. }
  assert (Lt : length t = n) by (rewrite <- (it_len _ _ _ _ _ I), <- Mt, map_length; reflexivity).
  exists t. split; [exact Et|]. split; [exact Lt|].
  assert (C : forall v, In v t <-> v < snd (type_loop eq n)).
  { intros v. rewrite (In_nth_lt t v 0). split.
    - intros [k Hk]. apply map_Some_nth in Hk. rewrite Mt in Hk. apply (it_bound _ _ _ _ _ I) in Hk. exact Hk.
    - intros Hv. destruct (it_used _ _ _ _ _ I v Hv) as [k [_ Ek]]. exists k. apply map_Some_nth. rewrite Mt. exact Ek. }
  split.
  { rewrite (count_distinct_range t _ C). exact C. }
  split.
  { intros Hp. assert (0 < n) by (unfold n; destruct p; [congruence|simpl; lia]).
    pose proof (it_zero _ _ _ _ _ I H) as Z. rewrite <- Mt in Z. apply map_Some_nth in Z. apply Z. }
  split.
  { intros i j Hi Hj E. apply (it_rel _ _ _ _ _ I i j (nth i t 0)); try assumption;
      rewrite <- Mt; apply map_Some_nth; split; try (rewrite Lt; assumption); [reflexivity|symmetry; exact E]. }
  intros Ht Hs Hr i j Hi Hj.
  pose (Rl := fun i j => same_site inv pc (nth i p vzero) (nth j p vzero) = true /\ nth i masses 0%R = nth j masses 0%R).
  assert (Er : forall a b, eq a b = true <-> Rl a b).
  { intros a b. unfold eq, equiv_test, Rl, masses_equal. rewrite andb_true_iff.
    destruct (Req_EM_T _ _); intuition congruence. }
  assert (H1 : forall a, a < n -> Rl a a) by (intros a Ha; split; [apply Hr; exact Ha|reflexivity]).
  assert (H2 : forall a b, a < n -> b < n -> Rl a b -> Rl b a).
  { intros a b Ha Hb [A B]. split; [rewrite Hs; assumption|symmetry; assumption]. }
  assert (H3 : forall a b c, a < n -> b < n -> c < n -> Rl a b -> Rl b c -> Rl a c).
  { intros a b c Ha Hb Hc [A B] [A' B']. split; [apply (Ht a b c); assumption|congruence]. }
  pose proof (type_loop_inv eq n Rl H1 H2 H3 (fun a b _ _ H => proj1 (Er a b) H)) as I2.
  pose proof (type_loop_complete eq n Rl H1 H2 H3 (fun a b _ _ H => proj1 (Er a b) H) (fun a b _ _ H => proj2 (Er a b) H)) as Cm.
  split.
  - intros E. apply (it_rel _ _ _ _ _ I2 i j (nth i t 0)); try assumption;
      rewrite <- Mt; apply map_Some_nth; split; try (rewrite Lt; assumption); [reflexivity|symmetry; exact E].
  - intros H. specialize (Cm i j Hi Hj H). rewrite <- Mt in Cm.
    assert (A : nth i (map Some t) None = Some (nth i t 0)) by (apply map_Some_nth; split; [rewrite Lt; assumption|reflexivity]).
    assert (B : nth j (map Some t) None = Some (nth j t 0)) by (apply map_Some_nth; split; [rewrite Lt; assumption|reflexivity]).
    rewrite A, B in Cm. injection Cm as ->. reflexivity.
Qed.

Lemma types_api cell masses p P : length masses = length p ->
  exists t s', get_types inv None (new_structure cell masses (Some p) None (Some P)) = Some (t, s') /\
  value (get_ntypes inv) s' = Some (count_distinct t) /\
  types_of (mT (mmul (mT cell) P)) p masses = Some t.
Proof.
  intros HL. pose proof (Inv_fresh (new_structure cell masses (Some p) None (Some P)) P p eq_refl) as I. simpl in I.
  destruct (types_spec (mT (mmul (mT cell) P)) p masses HL) as [t [Et _]].
  pose proof (Inv_types _ _ _ _ _ I) as T. rewrite Et in T. destruct T as [s' [E [I' _]]].
  exists t, s'. split; [exact E|]. split; [|exact Et].
  pose proof (Inv_ntypes _ _ _ _ _ I') as N. rewrite Et in N. destruct N as [s2 [E2 _]]. unfold value. rewrite E2. reflexivity.
Qed.
Lemma types_api_spec cell masses p P : length masses = length p ->
  exists t s', get_types inv None (new_structure cell masses (Some p) None (Some P)) = Some (t, s') /\
  length t = length p /\
  value (get_ntypes inv) s' = Some (count_distinct t) /\
  (forall v, In v t <-> v < count_distinct t) /\
  (p <> [] -> nth 0 t 0 = 0) /\
  (forall i j, i < length p -> j < length p -> nth i t 0 = nth j t 0 -> nth i masses 0%R = nth j masses 0%R) /\
  let site i j := same_site inv (mT (mmul (mT cell) P)) (nth i p vzero) (nth j p vzero) in
  ((forall i j k, i < length p -> j < length p -> k < length p -> site i j = true -> site j k = true -> site i k = true) ->
   (forall i j, i < length p -> j < length p -> site i j = site j i) ->
   (forall i, i < length p -> site i i = true) ->
   forall i j, i < length p -> j < length p ->
   (nth i t 0 = nth j t 0 <-> site i j = true /\ nth i masses 0%R = nth j masses 0%R)).
Proof.
  intros HL. destruct (types_api cell masses p P HL) as [t [s' [E [N T]]]].
  destruct (types_spec (mT (mmul (mT cell) P)) p masses HL) as [t' [T' [A [B [C [D F]]]]]].
  assert (t' = t) by congruence. subst t'. exists t, s'. repeat (split; [assumption|]). exact F.
Qed.
Lemma same_site_lattice pc x y : is_inverse (inv pc) pc -> lattice_equivalent pc x y -> same_site inv pc x y = true.
Proof.
  intros [Hi _] [a [b [c E]]]. unfold same_site. rewrite E, <- !vmul_mT, vmul_mmul, Hi, vmul_mid.
  simpl. rewrite !around_IZR.
  assert (Z0 : vnorm2 (vsub (vsub y (vmul (V3 (IZR a) (IZR b) (IZR c)) pc)) x) = 0%R).
  { rewrite <- E. unfold vnorm2, vdot, vsub; simpl. ring. }
  rewrite Z0. destruct (Rlt_dec 0 (1/1000)); [reflexivity|lra].
Qed.
Lemma same_site_separated pc x y : lattice_separated pc x y -> same_site inv pc x y = false.
Proof.
  intros H. unfold same_site. rewrite <- !vmul_mT.
  set (d := vmul (vsub y x) (inv pc)).
  specialize (H (around (vx d)) (around (vy d)) (around (vz d))).
  match goal with |- (if Rlt_dec ?u _ then _ else _) = _ => replace u with
    (vnorm2 (vsub (vsub y x) (vmul (V3 (IZR (around (vx d))) (IZR (around (vy d))) (IZR (around (vz d)))) pc))) end.
  - destruct (Rlt_dec _ _); [lra|reflexivity].
  - generalize (vmul (V3 (IZR (around (vx d))) (IZR (around (vy d))) (IZR (around (vz d)))) pc). intros w.
    unfold vnorm2, vdot, vsub; simpl. ring.
Qed.
Lemma lattice_equivalent_refl pc x : lattice_equivalent pc x x.
Proof. exists 0%Z, 0%Z, 0%Z. apply vec_eq; unfold vsub, vmul, vadd, vscale; simpl; ring. Qed.
Lemma lattice_equivalent_sym pc x y : lattice_equivalent pc x y -> lattice_equivalent pc y x.
Proof.
  intros [a [b [c E]]]. exists (-a)%Z, (-b)%Z, (-c)%Z.
  assert (F : vsub x y = vscale (-1) (vsub y x)) by vec_ring.
  rewrite F, E, !opp_IZR. vec_ring.
Qed.
Lemma lattice_equivalent_trans pc x y z : lattice_equivalent pc x y -> lattice_equivalent pc y z -> lattice_equivalent pc x z.
Proof.
  intros [a [b [c E]]] [a' [b' [c' E']]]. exists (a+a')%Z, (b+b')%Z, (c+c')%Z.
  assert (F : vsub z x = vadd (vsub y x) (vsub z y)) by vec_ring.
  rewrite F, E, E', !plus_IZR. vec_ring.
Qed.

Lemma types_crystal cell masses p P : length masses = length p ->
  let pc := mmul (mT P) cell in
  is_inverse (inv pc) pc ->
  (forall i j, i < length p -> j < length p ->
     lattice_equivalent pc (nth i p vzero) (nth j p vzero) \/ lattice_separated pc (nth i p vzero) (nth j p vzero)) ->
  exists t s', get_types inv None (new_structure cell masses (Some p) None (Some P)) = Some (t, s') /\
  length t = length p /\
  forall i j, i < length p -> j < length p ->
  (nth i t 0 = nth j t 0 <->
   lattice_equivalent pc (nth i p vzero) (nth j p vzero) /\ nth i masses 0%R = nth j masses 0%R).
Proof.
  intros HL pc Hi Hc. destruct (types_api_spec cell masses p P HL) as [t [s' [E [L [_ [_ [_ [_ F]]]]]]]].
  exists t, s'. split; [exact E|]. split; [exact L|].
  assert (Epc : mT (mmul (mT cell) P) = pc) by (unfold pc; rewrite mT_mmul, mT_mT; reflexivity).
  rewrite Epc in F. cbv zeta in F.
  assert (K : forall i j, i < length p -> j < length p ->
     (same_site inv pc (nth i p vzero) (nth j p vzero) = true <-> lattice_equivalent pc (nth i p vzero) (nth j p vzero))).
  { intros i j Hi' Hj'. destruct (Hc i j Hi' Hj') as [H|H].
    - split; [intros _; exact H|intros _; apply same_site_lattice; assumption].
    - rewrite (same_site_separated _ _ _ H). split; [discriminate|].
      intros [a [b [c E']]]. specialize (H a b c). rewrite E' in H. exfalso.
      unfold vnorm2, vdot, vsub in H; simpl in H. match type of H with (_ <= ?u)%R => replace u with 0%R in H by ring end. lra. }
  intros i j Hi' Hj'. rewrite F.
  - rewrite K by assumption. reflexivity.
  - intros a b c Ha Hb Hc'. rewrite !K by assumption. apply lattice_equivalent_trans.
  - intros a b Ha Hb. apply eq_true_iff_eq. rewrite !K by assumption. split; apply lattice_equivalent_sym.
  - intros a Ha. apply K; try assumption. apply lattice_equivalent_refl.
  - assumption.
  - assumption.
Qed.
End Values.

(* ---- the mass test is applied to the wrong list when a supercell is requested ---- *)
Lemma types_supercell_first (inv : mat -> mat) : is_inverse (inv mid) mid ->
  exists s sc t t' s1 s2 s3,
    s_masses s = [1%R; 2%R] /\
    get_types inv None s = Some (t, s1) /\ t = [0; 1] /\
    get_types inv (Some sc) s = Some (t', s2) /\
    get_types inv None s2 = Some ([0; 0], s3).
Proof.
  intros Hi. assert (Ei : inv mid = mid).
  { apply (is_inverse_unique _ _ mid); [exact Hi|]. split; apply mmul_id_l. }
  set (s := new_structure (mdiag 2 1 1) [1%R; 2%R] (Some [V3 0 0 0; V3 1 0 0]) None (Some (mdiag (1/2) 1 1))).
  exists s, (2, 1, 1).
  assert (EP : mT (mmul (mT (mdiag 2 1 1)) (mdiag (1 / 2) 1 1)) = mid).
  { vec_unfold. repeat (first [apply mat_eq | apply vec_eq]; simpl); field. }
  assert (SS : same_site inv mid (V3 0 0 0) (V3 1 0 0) = true).
  { unfold same_site. rewrite Ei, mT_mid, !mulv_mid. unfold vsub. simpl.
    replace (around (1 - 0)) with 1%Z by (symmetry; apply around_nearest; simpl; lra).
    replace (around (0 - 0)) with 0%Z by (symmetry; apply around_nearest; simpl; lra).
    unfold vnorm2, vdot. simpl. destruct (Rlt_dec _ _); [reflexivity|exfalso; apply n; lra]. }
  assert (M12 : masses_equal [1%R; 2%R] 0 1 = false) by (unfold masses_equal; simpl; destruct (Req_EM_T 1 2); [lra|reflexivity]).
  assert (M11 : masses_equal [1%R; 1%R; 2%R; 2%R] 0 1 = true) by (unfold masses_equal; simpl; destruct (Req_EM_T 1 1); [reflexivity|lra]).
  assert (G1 : exists s1, get_types inv None s = Some ([0; 1], s1)).
  { unfold s, get_types, get_masses, get_ncell, get_pcell, get_pmat, get_positions_of, fill_positions, bind, new_structure.
    cbn -[same_site get_positions masses_equal mmul mT mdiag equiv_test].
    rewrite !get_positions_unit. cbn -[same_site get_positions masses_equal mmul mT mdiag equiv_test].
    rewrite !get_positions_unit, EP. unfold equiv_test. cbn -[same_site get_positions masses_equal].
    rewrite SS, M12. cbn -[same_site get_positions masses_equal]. eexists. reflexivity. }
  assert (G2 : exists t s2 s3, get_types inv (Some (2, 1, 1)) s = Some (t, s2) /\ get_types inv None s2 = Some ([0; 0], s3)).
  { unfold s, get_types, get_masses, get_ncell, get_pcell, get_pmat, get_positions_of, fill_positions, bind, new_structure.
    cbn -[same_site get_positions masses_equal mmul mT mdiag equiv_test].
    rewrite !get_positions_unit. cbn -[same_site get_positions masses_equal mmul mT mdiag equiv_test].
    rewrite !get_positions_unit, EP. unfold equiv_test. cbn -[same_site get_positions masses_equal].
    rewrite SS, M11. cbn -[same_site get_positions masses_equal]. do 3 eexists. split; reflexivity. }
  destruct G1 as [s1 E1], G2 as [t [s2 [s3 [E2 E3]]]].
  exists [0; 1], t, s1, s2, s3. repeat split; assumption.
Qed.
