From Verif Require Import GenerateModel GenerateSpec.
From Coq Require Import Sorting.Permutation Sorting.Sorted String.
Open Scope R_scope.
Notation length := List.length.
Notation concat := List.concat.

(** insertion sort *)
Section S.
Context {X : Type} (le : X -> X -> bool) (total : forall x y, le x y = true \/ le y x = true).
Lemma insert_perm x l : Permutation (insert le x l) (x :: l).
Proof. induction l as [|y l IH]; [reflexivity|]. cbn. destruct (le x y); [reflexivity|]. rewrite IH. apply perm_swap. Qed.
Lemma isort_perm l : Permutation (isort le l) l.
Proof. induction l as [|x l IH]; [reflexivity|]. cbn. rewrite insert_perm, IH. reflexivity. Qed.
End S.
Section K.
Context {X : Type} (key : X -> nat).
Let le (p q : X) := Nat.leb (key p) (key q).
Definition ksorted (l : list X) := StronglySorted (fun p q => (key p < key q)%nat) l.
Lemma insert_first x l : Forall (fun y => (key x < key y)%nat) l -> insert le x l = x :: l.
Proof. destruct l as [|y l]; [reflexivity|]. intros H. inversion H. cbn. unfold le. assert (E : Nat.leb (key x) (key y) = true) by (apply Nat.leb_le; lia). rewrite E. reflexivity. Qed.
Lemma insert_comm x y l : key x <> key y -> insert le x (insert le y l) = insert le y (insert le x l).
Proof.
  intros N. induction l as [|a l IH].
  - cbn. unfold le. destruct (Nat.leb (key x) (key y)) eqn:E, (Nat.leb (key y) (key x)) eqn:F; try reflexivity.
    + apply Nat.leb_le in E. apply Nat.leb_le in F. lia.
    + apply Nat.leb_gt in E. apply Nat.leb_gt in F. lia.
  - cbn [insert]. unfold le in *. destruct (Nat.leb (key y) (key a)) eqn:E, (Nat.leb (key x) (key a)) eqn:F; cbn [insert]; rewrite ?E, ?F.
    + destruct (Nat.leb (key x) (key y)) eqn:G, (Nat.leb (key y) (key x)) eqn:H; try reflexivity; try (apply Nat.leb_le in G); try (apply Nat.leb_le in H); try (apply Nat.leb_gt in G); try (apply Nat.leb_gt in H); lia.
    + assert (G : Nat.leb (key x) (key y) = false) by (apply Nat.leb_gt; apply Nat.leb_gt in F; apply Nat.leb_le in E; lia). rewrite G. reflexivity.
    + assert (G : Nat.leb (key y) (key x) = false) by (apply Nat.leb_gt; apply Nat.leb_gt in E; apply Nat.leb_le in F; lia). rewrite G. reflexivity.
    + rewrite IH. reflexivity.
Qed.
Lemma isort_perm_eq l l' : Permutation l l' -> NoDup (map key l) -> isort le l = isort le l'.
Proof.
  induction 1 as [|x l l' P IH|x y l|l l' l'' P1 IH1 P2 IH2]; intros D.
  - reflexivity.
  - cbn. rewrite IH; [reflexivity|]. inversion D. assumption.
  - cbn. apply insert_comm. cbn in D. inversion D as [|a b H1 H2]. intros E. apply H1. left. congruence.
  - rewrite IH1 by exact D. apply IH2. rewrite <- P1. exact D.
Qed.
Lemma isort_sorted l : ksorted l -> isort le l = l.
Proof. induction 1 as [|x l S IH F]; [reflexivity|]. cbn. rewrite IH. apply insert_first. exact F. Qed.
Lemma ksorted_nodup l : ksorted l -> NoDup (map key l).
Proof. induction 1 as [|x l S IH F]; cbn; constructor; [|exact IH]. intros I. apply in_map_iff in I. destruct I as [y [E I]]. rewrite Forall_forall in F. specialize (F y I). lia. Qed.
End K.

(** first occurrences *)
Section U.
Context {A : Type} (eq_dec : forall x y : A, {x = y} + {x <> y}) (leb : A -> A -> bool).
Notation firsts := (firsts eq_dec).
Lemma firsts_ge l : forall seen k p, In p (firsts seen k l) -> (k <= snd p < k + length l)%nat /\ nth_error l (snd p - k) = Some (fst p) /\ ~ In (fst p) seen.
Proof.
  induction l as [|x l IH]; intros seen k p H; [destruct H|]. cbn [GenerateModel.firsts] in H.
  assert (C : forall seen', In p (firsts seen' (S k) l) -> (k <= snd p < k + length (x :: l))%nat /\ nth_error (x :: l) (snd p - k) = Some (fst p) /\ ~ In (fst p) seen').
  { intros seen' H'. destruct (IH _ _ _ H') as [B [E N]]. split; [cbn; lia|]. split; [|exact N]. replace (snd p - k)%nat with (S (snd p - S k)) by lia. exact E. }
  destruct (in_dec eq_dec x seen) as [I|I].
  - apply C. exact H.
  - destruct H as [<-|H].
    + cbn. rewrite Nat.sub_diag. split; [lia|]. split; [reflexivity|exact I].
    + destruct (C _ H) as [B [E N]]. split; [exact B|]. split; [exact E|]. intros Hs. apply N. right. exact Hs.
Qed.
Lemma firsts_sorted l : forall seen k, ksorted snd (firsts seen k l).
Proof.
  induction l as [|x l IH]; intros seen k; [constructor|]. cbn [GenerateModel.firsts]. destruct (in_dec eq_dec x seen); [apply IH|]. constructor; [apply IH|]. apply Forall_forall. intros p H. apply firsts_ge in H. cbn. lia.
Qed.
Lemma firsts_nodup l : forall seen k, NoDup (map fst (firsts seen k l)).
Proof.
  induction l as [|x l IH]; intros seen k; [constructor|]. cbn [GenerateModel.firsts]. destruct (in_dec eq_dec x seen); [apply IH|]. cbn. constructor; [|apply IH].
  intros I. apply in_map_iff in I. destruct I as [p [E I]]. apply firsts_ge in I. destruct I as [_ [_ N]]. apply N. left. symmetry. exact E.
Qed.
Lemma firsts_all l : forall seen k x, In x l -> In x seen \/ In x (map fst (firsts seen k l)).
Proof.
  induction l as [|y l IH]; intros seen k x H; [destruct H|]. cbn [GenerateModel.firsts]. destruct (in_dec eq_dec y seen) as [I|I].
  - destruct H as [<-|H]; [left; exact I|apply IH; exact H].
  - destruct H as [<-|H]; [right; left; reflexivity|]. destruct (IH (y :: seen) (S k) x H) as [[<-|G]|G]; [right; left; reflexivity|left; exact G|right; right; exact G].
Qed.
Lemma unsorted_firsts l : unsorted_unique eq_dec leb l = firsts [] 0 l.
Proof.
  unfold unsorted_unique, np_unique. assert (S := firsts_sorted l [] 0). rewrite <- (isort_sorted snd (firsts [] 0 l) S) at 2. symmetry. apply (isort_perm_eq snd); [|apply ksorted_nodup; exact S]. symmetry. apply isort_perm.
Qed.
(** what the header expands to: every atom gets the element that appeared last *)
Fixpoint fill (seen : list A) (e : A) (l : list A) : list A :=
  match l with [] => [] | x :: t => if in_dec eq_dec x seen then e :: fill seen e t else x :: fill (x :: seen) x t end.
Lemma header_fill l : forall seen k j e, (j <= k)%nat ->
  header_types (e :: map fst (firsts seen k l)) (diff (j :: map snd (firsts seen k l) ++ [(k + length l)%nat])) = repeat e (k - j) ++ fill seen e l.
Proof.
  induction l as [|x l IH]; intros seen k j e H.
  - cbn. rewrite Nat.add_0_r. reflexivity.
  - cbn [GenerateModel.firsts fill]. destruct (in_dec eq_dec x seen) as [I|I].
    + replace (k + length (x :: l))%nat with (S k + length l)%nat by (cbn; lia). rewrite IH by lia. replace (S k - j)%nat with ((k - j) + 1)%nat by lia. rewrite repeat_app, <- app_assoc. reflexivity.
    + cbn [map fst snd app diff]. replace (k + length (x :: l))%nat with (S k + length l)%nat by (cbn; lia).
      change (repeat e (k - j) ++ header_types (x :: map fst (firsts (x :: seen) (S k) l)) (diff (k :: map snd (firsts (x :: seen) (S k) l) ++ [(S k + length l)%nat])) = repeat e (k - j) ++ x :: fill (x :: seen) x l).
      f_equal. rewrite IH by lia. replace (S k - k)%nat with 1%nat by lia. reflexivity.
Qed.
Lemma vasp_header x l : header_types (vasp_elements eq_dec leb (x :: l)) (vasp_counts eq_dec leb (x :: l)) = x :: fill [x] x l.
Proof. unfold vasp_elements, vasp_counts. rewrite unsorted_firsts. cbn [GenerateModel.firsts]. destruct (in_dec eq_dec x []) as [[]|_]. cbn [map fst snd app]. apply (header_fill l [x] 1 0 x). lia. Qed.

Lemma fill_len l : forall seen e, length (fill seen e l) = length l.
Proof. induction l as [|x l IH]; intros seen e; [reflexivity|]. cbn. destruct (in_dec eq_dec x seen); cbn; rewrite IH; reflexivity. Qed.
Lemma header_sum (es : list A) : forall cs, length es = length cs -> length (header_types es cs) = list_sum cs.
Proof. induction es as [|e es IH]; intros [|c cs] H; try discriminate; [reflexivity|]. cbn. rewrite app_length, repeat_length, IH by (cbn in H; lia). reflexivity. Qed.
Lemma diff_len l : forall a, length (diff (a :: l)) = length l.
Proof. induction l as [|b l IH]; intros a; [reflexivity|]. change (S (length (diff (b :: l))) = length (b :: l)). rewrite IH. reflexivity. Qed.
Lemma diff_snoc_len (l : list nat) n : length (diff (l ++ [n])) = length l.
Proof. destruct l as [|a l]; [reflexivity|]. change ((a :: l) ++ [n]) with (a :: (l ++ [n])). rewrite diff_len, app_length. cbn. lia. Qed.
Lemma vasp_lengths l : length (vasp_elements eq_dec leb l) = length (vasp_counts eq_dec leb l).
Proof. unfold vasp_elements, vasp_counts. rewrite diff_snoc_len, !map_length. reflexivity. Qed.
Lemma vasp_sum l : list_sum (vasp_counts eq_dec leb l) = length l.
Proof. rewrite <- (header_sum (vasp_elements eq_dec leb l)) by apply vasp_lengths. destruct l as [|x l]; [reflexivity|]. rewrite vasp_header. cbn. rewrite fill_len. reflexivity. Qed.

Lemma grouped_prefix (p q : list A) : grouped (p ++ q) -> grouped p.
Proof.
  intros G i j k x H Hi Hk. assert (Hk' : (k < length p)%nat) by (apply nth_error_Some; congruence). assert (G' := G i j k x H). rewrite !nth_error_app1 in G' by lia. apply G'; assumption.
Qed.
Lemma grouped_snoc_old (p : list A) y : grouped (p ++ [y]) -> grouped (p ++ [y] ++ [y]).
Proof.
  intros G i j k x H Hi Hk. rewrite app_assoc in *. assert (L : length (p ++ [y]) = S (length p)) by (rewrite app_length; cbn; lia).
  destruct (Nat.lt_ge_cases k (S (length p))) as [K|K].
  - rewrite nth_error_app1 in * by lia. apply (G i j k x); assumption.
  - assert (Ek : k = S (length p)). { assert (k < length ((p ++ [y]) ++ [y]))%nat by (apply nth_error_Some; congruence). rewrite app_length, L in H0. cbn in H0. lia. }
    subst k. rewrite nth_error_app2 in Hk by lia. rewrite L, Nat.sub_diag in Hk. cbn in Hk. inversion Hk. subst x.
    destruct (Nat.lt_ge_cases j (length p)) as [J|J].
    + rewrite nth_error_app1 in * by lia. apply (G i j (length p) y); [lia|exact Hi|]. rewrite nth_error_app2, Nat.sub_diag by lia. reflexivity.
    + assert (j = length p) by lia. subst j. rewrite nth_error_app1 by lia. rewrite nth_error_app2, Nat.sub_diag by lia. reflexivity.
Qed.
Lemma grouped_snoc_new (p : list A) y : grouped p -> ~ In y p -> grouped (p ++ [y]).
Proof.
  intros G N i j k x H Hi Hk. destruct (Nat.lt_ge_cases k (length p)) as [K|K].
  - rewrite nth_error_app1 in * by lia. apply (G i j k x); assumption.
  - assert (Ek : k = length p). { assert (k < length (p ++ [y]))%nat by (apply nth_error_Some; congruence). rewrite app_length in H0. cbn in H0. lia. }
    subst k. rewrite nth_error_app2, Nat.sub_diag in Hk by lia. cbn in Hk. inversion Hk. subst x. exfalso. apply N. rewrite nth_error_app1 in Hi by lia. apply nth_error_In in Hi. exact Hi.
Qed.
Lemma grouped_last (p : list A) e y q : grouped (p ++ [e] ++ [y] ++ q) -> In y (p ++ [e]) -> y = e.
Proof.
  intros G I. apply in_app_or in I. destruct I as [I|[I|[]]]; [|symmetry; exact I]. apply In_nth_error in I. destruct I as [i Hi]. assert (Li : (i < length p)%nat) by (apply nth_error_Some; congruence).
  assert (N1 : nth_error (p ++ [e] ++ [y] ++ q) (length p) = Some e) by (rewrite nth_error_app2, Nat.sub_diag by lia; reflexivity).
  assert (N2 : nth_error (p ++ [e] ++ [y] ++ q) (S (length p)) = Some y) by (rewrite nth_error_app2 by lia; replace (S (length p) - length p)%nat with 1%nat by lia; reflexivity).
  assert (E := G i (length p) (S (length p)) y ltac:(lia)). rewrite N1, N2, nth_error_app1 in E by lia. specialize (E Hi eq_refl). congruence.
Qed.
Lemma fill_grouped l : forall p e seen, (forall x, In x seen <-> In x (p ++ [e])) -> grouped (p ++ [e]) -> (fill seen e l = l <-> grouped (p ++ [e] ++ l)).
Proof.
  induction l as [|y l IH]; intros p e seen Hs G.
  - cbn. split; intros _; [exact G|reflexivity].
  - cbn [fill]. destruct (in_dec eq_dec y seen) as [I|I].
    + split.
      * intros E. inversion E as [[E1 E2]]. subst y. rewrite E2.
        assert (Q := IH (p ++ [e]) e seen). replace (p ++ [e] ++ e :: l) with ((p ++ [e]) ++ [e] ++ l) by (rewrite <- app_assoc; reflexivity). apply Q; [|rewrite <- app_assoc; apply grouped_snoc_old; exact G|exact E2].
        intros x. rewrite Hs. rewrite !in_app_iff. cbn. tauto.
      * intros E. assert (y = e) by (apply (grouped_last p e y l); [exact E|apply Hs; exact I]). subst y. f_equal. apply (IH (p ++ [e]) e seen).
        -- intros x. rewrite Hs. rewrite !in_app_iff. cbn. tauto.
        -- rewrite <- app_assoc. apply grouped_snoc_old. exact G.
        -- rewrite <- app_assoc. exact E.
    + assert (Q := IH (p ++ [e]) y (y :: seen)). assert (H1 : forall x, In x (y :: seen) <-> In x ((p ++ [e]) ++ [y])). { intros x. cbn. rewrite Hs. rewrite !in_app_iff. cbn. tauto. }
      assert (H2 : grouped ((p ++ [e]) ++ [y])) by (apply grouped_snoc_new; [exact G|intros C; apply I, Hs; exact C]).
      specialize (Q H1 H2). rewrite <- app_assoc in Q. change ([y] ++ l) with (y :: l) in Q. rewrite <- Q. split; intros E; [inversion E; congruence|congruence].
Qed.
Lemma vasp_iff l : header_types (vasp_elements eq_dec leb l) (vasp_counts eq_dec leb l) = l <-> grouped l.
Proof.
  destruct l as [|x l]. { cbn. split; [intros _ i j k y _ H; destruct i; discriminate|reflexivity]. }
  rewrite vasp_header. assert (Q := fill_grouped l [] x [x]). cbn [app] in Q. assert (G1 : grouped [x]). { intros i j k y H _ Hk. destruct k as [|[|k]]; try discriminate; lia. }
  specialize (Q (fun z => iff_refl _) G1). rewrite <- Q. split; intros E; [inversion E; congruence|congruence].
Qed.

(** LAMMPS atom types *)
Lemma concat_header (es cs : list nat) : concat (map (fun p => repeat (fst p) (snd p)) (combine es cs)) = header_types es cs.
Proof. revert cs. induction es as [|e es IH]; intros [|c cs]; try reflexivity. cbn. rewrite IH. reflexivity. Qed.
End U.
Lemma firsts_repeat a c seen k rest : (0 < c)%nat -> ~ In a seen -> firsts Nat.eq_dec seen k (repeat a c ++ rest) = (a, k) :: firsts Nat.eq_dec (a :: seen) (k + c) rest.
Proof.
  intros Hc Ha. destruct c as [|c]; [lia|]. cbn [repeat app firsts]. destruct (in_dec Nat.eq_dec a seen); [contradiction|]. f_equal.
  assert (E : forall c k, firsts Nat.eq_dec (a :: seen) k (repeat a c ++ rest) = firsts Nat.eq_dec (a :: seen) (k + c) rest).
  { induction c0 as [|c0 IH]; intros k0; [rewrite Nat.add_0_r; reflexivity|]. cbn [repeat app firsts]. destruct (in_dec Nat.eq_dec a (a :: seen)) as [_|N]; [|exfalso; apply N; left; reflexivity]. rewrite IH. f_equal. lia. }
  rewrite E. f_equal. lia.
Qed.
Lemma firsts_blocks n idx : forall seen a k, StronglySorted lt (k :: idx) -> Forall (fun i => (i < n)%nat) (k :: idx) -> (forall s, In s seen -> (s < a)%nat) ->
  firsts Nat.eq_dec seen k (header_types (seq a (length (k :: idx))) (diff ((k :: idx) ++ [n]))) = combine (seq a (length (k :: idx))) (k :: idx).
Proof.
  induction idx as [|k' idx IH]; intros seen a k S F Hs.
  - cbn [length seq app diff header_types combine]. inversion F. rewrite firsts_repeat; [reflexivity|lia|]. intros I. apply Hs in I. lia.
  - change (diff ((k :: k' :: idx) ++ [n])) with ((k' - k)%nat :: diff ((k' :: idx) ++ [n])). change (seq a (length (k :: k' :: idx))) with (a :: seq (Datatypes.S a) (length (k' :: idx))). cbn [header_types combine].
    inversion S as [|q r S1 S2]. subst. inversion S2. subst. inversion F. subst. rewrite firsts_repeat; [|lia|intros I; apply Hs in I; lia]. f_equal. replace (k + (k' - k))%nat with k' by lia. apply IH; [assumption|assumption|].
    intros s [<-|I]; [lia|]. apply Hs in I. lia.
Qed.
Section L.
Context {A : Type} (eq_dec : forall x y : A, {x = y} + {x <> y}) (leb : A -> A -> bool) (def : A).
Notation P l := (firsts eq_dec [] 0 l).
Lemma ksorted_map {X} (key : X -> nat) l : ksorted key l -> StronglySorted lt (map key l).
Proof. induction 1 as [|x l S IH F]; cbn; constructor; [exact IH|]. rewrite Forall_map. exact F. Qed.
Lemma sorted_ksorted_combine : forall (idx : list nat) a, ksorted fst (combine (seq a (length idx)) idx).
Proof.
  induction idx as [|k idx IH]; intros a; [constructor|]. cbn. constructor; [apply IH|]. apply Forall_forall. intros [u v] I. apply in_combine_l in I. apply in_seq in I. cbn. lia.
Qed.
Lemma combine_snd {X Y} (u : list X) : forall v : list Y, length u = length v -> map snd (combine u v) = v.
Proof. induction u as [|a u IH]; intros [|b v] H; try discriminate; [reflexivity|]. cbn. rewrite IH by (cbn in H; lia). reflexivity. Qed.
Lemma aiu l : atom_index_unique eq_dec leb l = map snd (P l).
Proof.
  unfold atom_index_unique, atom_index. rewrite concat_header. unfold vasp_counts. rewrite unsorted_firsts. rewrite diff_snoc_len, map_length.
  destruct l as [|x l]; [reflexivity|]. assert (E : exists k idx, map snd (P (x :: l)) = k :: idx). { cbn. destruct (in_dec eq_dec x []) as [[]|_]. cbn. eauto. } 
  destruct E as [k [idx E]]. assert (K : k = 0%nat). { cbn in E. destruct (in_dec eq_dec x []) as [[]|_]. cbn in E. congruence. } subst k.
  assert (Len : length (P (x :: l)) = length (0%nat :: idx)) by (rewrite <- E, map_length; reflexivity). rewrite Len, E. unfold np_unique.
  rewrite firsts_blocks; [|rewrite <- E; apply ksorted_map, firsts_sorted| |intros s []].
  - rewrite (isort_sorted fst); [|apply sorted_ksorted_combine]. rewrite combine_snd; [reflexivity|]. rewrite seq_length. reflexivity.
  - rewrite <- E. apply Forall_forall. intros i I. apply in_map_iff in I. destruct I as [p [<- I]]. apply firsts_ge in I. lia.
Qed.
Lemma nth_firsts l p : In p (P l) -> nth (snd p) l def = fst p.
Proof. intros I. apply firsts_ge in I. destruct I as [_ [E _]]. rewrite Nat.sub_0_r in E. apply nth_error_nth. exact E. Qed.
(** the dictionary maps the i-th new element to i+1 *)
Lemma dict_fold types ps : forall a d, fold_left (fun d p => (nth (snd p) types def, S (fst p)) :: d) (combine (seq a (length ps)) ps) d = rev (combine (map (fun k => nth k types def) ps) (seq (S a) (length ps))) ++ d.
Proof. induction ps as [|k ps IH]; intros a d; [reflexivity|]. cbn [length seq combine fold_left map rev fst snd]. rewrite IH. rewrite <- app_assoc. reflexivity. Qed.
Lemma dict_eq l : index_dict eq_dec leb def l = rev (combine (map fst (P l)) (seq 1 (length (P l)))).
Proof.
  unfold index_dict. rewrite aiu. rewrite (dict_fold l (map snd (P l)) 0 []). rewrite app_nil_r, map_length, map_map. f_equal. f_equal. apply map_ext_in. intros p I. apply nth_firsts. exact I.
Qed.
Lemma lookup_in (d : list (A * nat)) x v : NoDup (map fst d) -> In (x, v) d -> lookup eq_dec d x = Some v.
Proof.
  induction d as [|[k w] d IH]; intros N I; [destruct I|]. cbn. destruct (eq_dec k x) as [->|E].
  - destruct I as [I|I]; [congruence|]. inversion N. exfalso. apply H1. apply in_map_iff. exists (x, v). split; [reflexivity|exact I].
  - destruct I as [I|I]; [congruence|]. apply IH; [inversion N; assumption|exact I].
Qed.
Lemma combine_fst {X Y} (u : list X) : forall v : list Y, length u = length v -> map fst (combine u v) = u.
Proof. induction u as [|a u IH]; intros [|b v] H; try discriminate; [reflexivity|]. cbn. rewrite IH by (cbn in H; lia). reflexivity. Qed.
Lemma type_value l i : (i < length l)%nat -> exists t k, lammps_type eq_dec leb def l i = Some (S t) /\ nth_error (P l) t = Some (nth i l def, k).
Proof.
  intros Hi. assert (I : In (nth i l def) l) by (apply nth_In; exact Hi). destruct (firsts_all eq_dec l [] 0 _ I) as [[]|F]. apply In_nth_error in F. destruct F as [t Ht].
  assert (Lt : (t < length (P l))%nat) by (rewrite <- (map_length fst); apply nth_error_Some; congruence). rewrite nth_error_map in Ht. destruct (nth_error (P l) t) as [[y k]|] eqn:E; [|discriminate]. cbn in Ht. inversion Ht. subst y.
  exists t, k. split; [|exact E]. unfold lammps_type. rewrite dict_eq. assert (Len : length (map fst (P l)) = length (seq 1 (length (P l)))) by (rewrite map_length, seq_length; reflexivity). apply lookup_in.
  - rewrite map_rev, combine_fst by exact Len. apply NoDup_rev, firsts_nodup.
  - apply -> in_rev. apply (nth_error_In _ t). 
    assert (Z : forall (u : list A) (v : list nat) t a b, nth_error u t = Some a -> nth_error v t = Some b -> nth_error (combine u v) t = Some (a, b)).
    { clear. induction u as [|a u IH]; intros [|b v] [|t] a0 b0 H1 H2; try discriminate; cbn in *; [congruence|]. apply IH; assumption. }
    apply Z; [rewrite nth_error_map, E; reflexivity|]. rewrite (nth_error_nth' _ 0%nat) by (rewrite seq_length; exact Lt). rewrite seq_nth by exact Lt. reflexivity.
Qed.
Lemma ntypes l : lammps_ntypes eq_dec leb l = length (P l).
Proof. unfold lammps_ntypes. rewrite aiu. apply map_length. Qed.
Lemma ntypes_distinct l : lammps_ntypes eq_dec leb l = length (nodup eq_dec l).
Proof.
  rewrite ntypes. rewrite <- (map_length fst). apply Permutation_length. apply NoDup_Permutation; [apply firsts_nodup|apply NoDup_nodup|]. intros x. rewrite nodup_In. split; intros H.
  - apply in_map_iff in H. destruct H as [p [<- H]]. apply firsts_ge in H. destruct H as [_ [H _]]. apply nth_error_In in H. exact H.
  - destruct (firsts_all eq_dec l [] 0 x H) as [[]|F]. exact F.
Qed.
Lemma lammps_types_ok l masses : length masses = length l -> (forall i j, (i < length l)%nat -> (j < length l)%nat -> nth i l def = nth j l def -> nth i masses 0 = nth j masses 0) ->
  (forall i, (i < length l)%nat -> exists t, lammps_type eq_dec leb def l i = Some t /\ (1 <= t <= lammps_ntypes eq_dec leb l)%nat /\ nth (t - 1) (lammps_masses eq_dec leb l masses) 0 = nth i masses 0) /\
  (forall i j, (i < length l)%nat -> (j < length l)%nat -> (lammps_type eq_dec leb def l i = lammps_type eq_dec leb def l j <-> nth i l def = nth j l def)).
Proof.
  intros Lm Hm. split.
  - intros i Hi. destruct (type_value l i Hi) as [t [k [E F]]]. exists (S t). split; [exact E|]. assert (Lt : (t < length (P l))%nat) by (apply nth_error_Some; congruence). split; [rewrite ntypes; lia|].
    replace (S t - 1)%nat with t by lia. unfold lammps_masses. rewrite aiu. rewrite map_map. rewrite (nth_indep _ 0 (nth (snd (def, 0%nat)) masses 0)) by (rewrite map_length; exact Lt).
    rewrite (map_nth (fun p : A * nat => nth (snd p) masses 0)). rewrite (nth_error_nth _ _ _ F). cbn. assert (I := nth_error_In _ _ F). assert (B := firsts_ge eq_dec l [] 0 _ I). cbn in B. destruct B as [B _].
    apply Hm; [lia|exact Hi|]. apply (nth_firsts l (nth i l def, k)). exact I.
  - intros i j Hi Hj. destruct (type_value l i Hi) as [t [k [E F]]]. destruct (type_value l j Hj) as [t' [k' [E' F']]]. rewrite E, E'. split.
    + intros H. inversion H. subst t'. rewrite F in F'. congruence.
    + intros H. f_equal. f_equal. rewrite H in F. assert (D := firsts_nodup eq_dec l [] 0). assert (G : nth_error (map fst (P l)) t = nth_error (map fst (P l)) t') by (rewrite !nth_error_map, F, F'; reflexivity).
      rewrite NoDup_nth_error in D. apply D; [|exact G]. rewrite map_length. apply nth_error_Some. congruence.
Qed.
End L.
