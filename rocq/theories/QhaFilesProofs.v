(** Lemmas about QhaFilesModel *)
From Verif Require Import QhaFilesModel.
From Coq Require Import Lra Lia.
Open Scope R_scope.

Definition at2 (m : list (list R)) (q b : nat) : R := nth b (nth q m []) 0.
Definition is_table (n nb : nat) (m : list (list R)) : Prop := List.length m = n /\ forall r, In r m -> List.length r = nb.

Lemma broadcast_eq {A B D} (f : A -> B -> option D) a b : List.length a = List.length b -> broadcast f a b = map2 f a b.
Proof.
  intros H. destruct a as [|x [|x' a]]; destruct b as [|y [|y' b]]; try discriminate; try reflexivity.
Qed.
Lemma map2_some {A B D} (f : A -> B -> option D) (g : A -> B -> D) a b : List.length a = List.length b ->
  (forall x y, In x a -> In y b -> f x y = Some (g x y)) -> map2 f a b = Some (map (fun p => g (fst p) (snd p)) (combine a b)).
Proof.
  revert b. induction a as [|x a IH]; intros [|y b] L H; try discriminate; [reflexivity|].
  cbn. rewrite (H x y) by (left; reflexivity). rewrite IH; [reflexivity|cbn in L; lia|intros; apply H; right; assumption].
Qed.
Lemma map2_length {A B D} (f : A -> B -> option D) a b m : map2 f a b = Some m -> List.length a = List.length b.
Proof.
  revert b m. induction a as [|x a IH]; intros [|y b] m H; try discriminate; [reflexivity|].
  cbn in H. destruct (f x y); [|discriminate]. destruct (map2 f a b) eqn:E; [|discriminate]. cbn. f_equal. eapply IH; eauto.
Qed.
Lemma broadcast_hd {A B D} (f : A -> B -> option D) x a y b m : broadcast f (x :: a) (y :: b) = Some m -> exists z m', m = z :: m' /\ f x y = Some z.
Proof.
  intros H. assert (X : exists a' b', map2 f (x :: a') (y :: b') = Some m).
  { destruct a as [|x' a]; [|destruct b as [|y' b]].
    - unfold broadcast in H. cbn [List.length repeat] in H. eexists; eexists; exact H.
    - unfold broadcast in H. cbn [List.length repeat] in H. eexists; eexists; exact H.
    - unfold broadcast in H. eexists; eexists; exact H. }
  destruct X as [a' [b' X]]. cbn in X. destruct (f x y) as [z|]; [|discriminate]. destruct (map2 f a' b') as [r|]; [|discriminate]. injection X as <-. eauto.
Qed.
Lemma rectangular_table n nb m : is_table n nb m -> rectangular m = true.
Proof.
  intros [_ H]. unfold rectangular. apply forallb_forall. intros r Hr. apply Nat.eqb_eq. rewrite (H r Hr). destruct m as [|r0 m]; [destruct Hr|]. cbn. symmetry. apply H. left; reflexivity.
Qed.
Lemma row_op (g : R -> R -> R) nb a b : List.length a = nb -> List.length b = nb ->
  exists m, broadcast (fun x y => Some (g x y)) a b = Some m /\ List.length m = nb /\ forall k, (k < nb)%nat -> nth k m 0 = g (nth k a 0) (nth k b 0).
Proof.
  intros La Lb. exists (map (fun p => g (fst p) (snd p)) (combine a b)). split; [|split].
  - rewrite broadcast_eq by congruence. apply map2_some; [congruence|reflexivity].
  - rewrite map_length, combine_length. lia.
  - intros k Hk. rewrite (nth_indep _ 0 (g 0 0)) by (rewrite map_length, combine_length; lia).
    change (g 0 0) with ((fun p : R * R => g (fst p) (snd p)) (0, 0)). rewrite map_nth. rewrite combine_nth by congruence. reflexivity.
Qed.
Lemma map2_ex {A B D} (f : A -> B -> option D) (P : A -> B -> D -> Prop) a b : List.length a = List.length b ->
  (forall x y, In x a -> In y b -> exists z, f x y = Some z /\ P x y z) ->
  exists m, map2 f a b = Some m /\ List.length m = List.length a /\ forall k da db dm, (k < List.length a)%nat -> P (nth k a da) (nth k b db) (nth k m dm).
Proof.
  revert b. induction a as [|x a IH]; intros [|y b] L H; try discriminate.
  - exists []. split; [reflexivity|]. split; [reflexivity|]. cbn. lia.
  - destruct (H x y) as [z [Ez Pz]]; [left; reflexivity..|]. destruct (IH b) as [m [Em [Lm Pm]]]; [cbn in L; lia|intros; apply H; right; assumption|].
    exists (z :: m). split; [cbn; rewrite Ez, Em; reflexivity|]. split; [cbn; lia|]. intros [|k] da db dm Hk; cbn; [exact Pz|]. apply Pm. cbn in Hk. lia.
Qed.
Lemma array_op (g : R -> R -> R) n nb a b : is_table n nb a -> is_table n nb b ->
  exists m, broadcast (broadcast (fun x y => Some (g x y))) a b = Some m /\ is_table n nb m /\ forall q k, (q < n)%nat -> (k < nb)%nat -> at2 m q k = g (at2 a q k) (at2 b q k).
Proof.
  intros [La Ha] [Lb Hb]. rewrite broadcast_eq by congruence.
  destruct (map2_ex (broadcast (fun x y => Some (g x y))) (fun x y z => List.length z = nb /\ forall k, (k < nb)%nat -> nth k z 0 = g (nth k x 0) (nth k y 0)) a b) as [m [Em [Lm Pm]]].
  - congruence.
  - intros x y Hx Hy. destruct (row_op g nb x y (Ha x Hx) (Hb y Hy)) as [z [E [L V]]]. exists z. auto.
  - exists m. split; [exact Em|]. split; [split; [congruence|]|].
    + intros r Hr. apply (In_nth _ _ []) in Hr. destruct Hr as [k [Hk <-]]. apply (Pm k [] [] []). lia.
    + intros q k Hq Hk. apply (Pm q [] [] []); [lia|exact Hk].
Qed.
Lemma minus_array_table n nb a b : is_table n nb a -> is_table n nb b ->
  exists m, minus_array a b = Some m /\ is_table n nb m /\ forall q k, (q < n)%nat -> (k < nb)%nat -> at2 m q k = at2 a q k - at2 b q k.
Proof. intros Ha Hb. unfold minus_array, np_array. rewrite (rectangular_table _ _ _ Ha), (rectangular_table _ _ _ Hb). exact (array_op Rminus n nb a b Ha Hb). Qed.
Lemma plus_array_table n nb a b : is_table n nb a -> is_table n nb b ->
  exists m, plus_array a b = Some m /\ is_table n nb m /\ forall q k, (q < n)%nat -> (k < nb)%nat -> at2 m q k = at2 a q k + at2 b q k.
Proof. intros Ha Hb. unfold plus_array, np_array. rewrite (rectangular_table _ _ _ Ha), (rectangular_table _ _ _ Hb). exact (array_op Rplus n nb a b Ha Hb). Qed.
(** a file of one entry is repeated *)
Lemma is_table_repeat n nb r : List.length r = nb -> is_table n nb (repeat r n).
Proof. intros L. split; [apply repeat_length|]. intros r' H. apply repeat_spec in H. rewrite H. exact L. Qed.
Lemma minus_array_single n nb r b : List.length r = nb -> (1 <= n)%nat -> is_table n nb b ->
  exists m, minus_array [r] b = Some m /\ is_table n nb m /\ forall q k, (q < n)%nat -> (k < nb)%nat -> at2 m q k = nth k r 0 - at2 b q k.
Proof.
  intros L Hn Hb. destruct (array_op Rminus n nb (repeat r n) b (is_table_repeat n nb r L) Hb) as [m [E [T V]]]. exists m. split; [|split; [exact T|]].
  - unfold minus_array, np_array. rewrite (rectangular_table _ _ _ Hb). cbn [rectangular forallb hd]. unfold rectangular. cbn [forallb hd]. rewrite Nat.eqb_refl. cbn [andb].
    rewrite broadcast_eq in E by (rewrite repeat_length; symmetry; exact (proj1 Hb)). unfold broadcast at 1. destruct Hb as [Lb _]. rewrite Lb. exact E.
  - intros q k Hq Hk. rewrite (V q k Hq Hk). f_equal. unfold at2.
    rewrite (nth_indep (repeat r n) [] r) by (rewrite repeat_length; exact Hq). rewrite nth_repeat. reflexivity.
Qed.
Lemma broadcast_refused {A B D} (f : A -> B -> option D) a b : List.length a <> List.length b -> List.length a <> 1%nat -> List.length b <> 1%nat -> broadcast f a b = None.
Proof.
  intros H Ha Hb. assert (X : broadcast f a b = map2 f a b). { destruct a as [|x [|x' a]]; destruct b as [|y [|y' b]]; try reflexivity; exfalso; cbn in *; lia. }
  rewrite X. destruct (map2 f a b) eqn:E; [|reflexivity]. apply map2_length in E. contradiction.
Qed.
(** the loop over the files *)
Lemma shift_loop_ok {A} (labels : list A) (files : list qfile) ref (P : qfile -> list (list R) -> Prop) : forall k, (k + List.length labels <= List.length files)%nat ->
  (forall j f, (k <= j < k + List.length labels)%nat -> nth_error files j = Some f -> exists m, minus_array (map fe_frequencies f) ref = Some m /\ P f m) ->
  exists l, shift_loop k labels files ref = Some l /\ List.length l = List.length labels /\
    forall j f, (j < List.length labels)%nat -> nth_error files (k + j) = Some f -> exists m, nth_error l j = Some m /\ P f m.
Proof.
  induction labels as [|x labels IH]; intros k L H.
  - exists []. split; [reflexivity|]. split; [reflexivity|]. cbn. lia.
  - cbn [List.length] in *. destruct (nth_error files k) as [f|] eqn:Ef; [|exfalso; apply nth_error_None in Ef; lia].
    destruct (H k f ltac:(lia) Ef) as [m [Em Pm]]. destruct (IH (S k)) as [l [El [Ll Vl]]]; [lia|intros j f' Hj; apply H; lia|].
    exists (m :: l). split; [cbn [shift_loop]; rewrite Ef, Em, El; reflexivity|]. split; [cbn; lia|].
    intros [|j] f' Hj Hf'; [rewrite Nat.add_0_r, Ef in Hf'; injection Hf' as <-; exists m; split; [reflexivity|exact Pm]|].
    cbn [nth_error]. apply Vl; [lia|]. rewrite <- Hf'. f_equal. lia.
Qed.
Lemma shift_loop_app {A} (labels : list A) (files extra : list qfile) ref : forall k, (k + List.length labels <= List.length files)%nat -> shift_loop k labels (files ++ extra) ref = shift_loop k labels files ref.
Proof. induction labels as [|x labels IH]; intros k L; [reflexivity|]. cbn [shift_loop List.length] in L |- *. rewrite nth_error_app1 by lia. rewrite IH by lia. reflexivity. Qed.
Lemma shift_loop_short {A} (labels : list A) (files : list qfile) ref : forall k, (List.length files < k + List.length labels)%nat -> (k <= List.length files)%nat -> shift_loop k labels files ref = None.
Proof.
  induction labels as [|x labels IH]; intros k L Hk; cbn [shift_loop List.length] in L |- *; [lia|].
  destruct (nth_error files k) as [f|] eqn:E; [|reflexivity]. assert (k < List.length files)%nat by (apply nth_error_Some; congruence).
  rewrite IH by lia. destruct (minus_array _ _); reflexivity.
Qed.
Lemma shift_loop_fail {A} (labels : list A) (files : list qfile) ref j f : forall k, (k <= j < k + List.length labels)%nat -> nth_error files j = Some f -> minus_array (map fe_frequencies f) ref = None -> shift_loop k labels files ref = None.
Proof.
  induction labels as [|x labels IH]; intros k Hj Ef Em; cbn [shift_loop List.length] in Hj |- *; [lia|].
  destruct (Nat.eq_dec j k) as [->|Hn]; [rewrite Ef, Em; reflexivity|]. rewrite (IH (S k)) by (assumption || lia). destruct (nth_error files k) as [g|]; [destruct (minus_array (map fe_frequencies g) ref); reflexivity|reflexivity].
Qed.
Lemma stack_ok n nb l : (1 <= n)%nat -> (forall m, In m l -> is_table n nb m) -> stack l = Some l.
Proof.
  intros Hn H. unfold stack. replace (forallb (same_shape (hd [] l)) l) with true; [reflexivity|]. symmetry. apply forallb_forall. intros m Hm.
  destruct l as [|m0 l]; [destruct Hm|]. cbn [hd]. assert (T0 := H m0 (or_introl eq_refl)). assert (T := H m Hm). unfold same_shape. apply andb_true_intro. split; apply Nat.eqb_eq.
  - rewrite (proj1 T0), (proj1 T). reflexivity.
  - destruct T0 as [L0 R0], T as [L1 R1]. destruct m0 as [|r0 m0]; [cbn in L0; lia|]. destruct m as [|r m]; [cbn in L1; lia|]. cbn. rewrite (R0 r0), (R1 r); [reflexivity|left; reflexivity..].
Qed.
Lemma shape_ok n nb m l : (1 <= n)%nat -> (forall x, In x (m :: l) -> is_table n nb x) -> shape (m :: l) = (n, nb).
Proof.
  intros Hn H. destruct (H m (or_introl eq_refl)) as [L R]. unfold shape. cbn [hd]. rewrite L. f_equal. destruct m as [|r m]; [cbn in L; lia|]. cbn. apply R. left; reflexivity.
Qed.
Lemma sequence_map {A B} (f : A -> option B) (g : A -> B) l : (forall x, In x l -> f x = Some (g x)) -> sequence (map f l) = Some (map g l).
Proof. induction l as [|x l IH]; intros H; [reflexivity|]. cbn. rewrite (H x) by (left; reflexivity). rewrite IH by (intros; apply H; right; assumption). reflexivity. Qed.
Lemma sequence_none {A B} (f : A -> option B) l x : In x l -> f x = None -> sequence (map f l) = None.
Proof.
  induction l as [|y l IH]; intros [].
  - subst. intros H. cbn. rewrite H. reflexivity.
  - intros Hx. cbn. destruct (f y); [|reflexivity]. rewrite IH by assumption. reflexivity.
Qed.
Definition tabulate (n nb : nat) (f : nat -> nat -> R) : list (list R) := map (fun q => map (fun b => f q b) (seq 0 nb)) (seq 0 n).
Lemma tabulate_table n nb f : is_table n nb (tabulate n nb f).
Proof. split; [unfold tabulate; rewrite map_length, seq_length; reflexivity|]. intros r Hr. apply in_map_iff in Hr. destruct Hr as [q [<- _]]. rewrite map_length, seq_length. reflexivity. Qed.
Lemma at2_tabulate n nb f q b : (q < n)%nat -> (b < nb)%nat -> at2 (tabulate n nb f) q b = f q b.
Proof.
  intros Hq Hb. unfold at2, tabulate. rewrite (nth_indep _ [] (map (fun b => f 0%nat b) (seq 0 nb))) by (rewrite map_length, seq_length; exact Hq).
  rewrite (map_nth (fun q => map (fun b => f q b) (seq 0 nb)) (seq 0 n) 0%nat q). rewrite seq_nth by exact Hq. cbn [Nat.add].
  rewrite (nth_indep _ 0 (f q 0%nat)) by (rewrite map_length, seq_length; exact Hb). rewrite (map_nth (fun b => f q b) (seq 0 nb) 0%nat b). rewrite seq_nth by exact Hb. reflexivity.
Qed.
Lemma table_tabulate n nb m f : is_table n nb m -> (forall q b, (q < n)%nat -> (b < nb)%nat -> at2 m q b = f q b) -> m = tabulate n nb f.
Proof.
  intros [L R] H. apply (nth_ext _ _ [] []); [unfold tabulate; rewrite map_length, seq_length; exact L|]. intros q Hq. rewrite L in Hq.
  destruct (tabulate_table n nb f) as [Lt Rt]. assert (L1 : List.length (nth q m []) = nb) by (apply R, nth_In; lia). assert (L2 : List.length (nth q (tabulate n nb f) []) = nb) by (apply Rt, nth_In; lia).
  apply (nth_ext _ _ 0 0); [congruence|]. intros b Hb. rewrite L1 in Hb. assert (X := H q b Hq Hb). rewrite <- (at2_tabulate n nb f q b Hq Hb) in X. exact X.
Qed.
Lemma evaluate_ok n nb m l f g : (1 <= n)%nat -> (forall x, In x (m :: l) -> is_table n nb x) ->
  (forall q b, (q < n)%nat -> (b < nb)%nat -> f (series (m :: l) q b) = Some (g q b)) -> evaluate (m :: l) f = Some (tabulate n nb g).
Proof.
  intros Hn H V. unfold evaluate. rewrite (shape_ok n nb) by assumption. cbn [fst snd]. unfold tabulate. apply (sequence_map _ (fun q => map (fun b => g q b) (seq 0 nb))). intros q Hq. apply in_seq in Hq.
  apply (sequence_map _ (fun b => g q b)). intros b Hb. apply in_seq in Hb. apply V; lia.
Qed.
Lemma shift_loop_inv {A} (labels : list A) (files : list qfile) ref : forall k l, shift_loop k labels files ref = Some l ->
  List.length l = List.length labels /\ forall j m, nth_error l j = Some m -> exists f, nth_error files (k + j) = Some f /\ minus_array (map fe_frequencies f) ref = Some m.
Proof.
  induction labels as [|x labels IH]; intros k l H.
  - injection H as <-. split; [reflexivity|]. intros [|j] m Hm; discriminate.
  - cbn [shift_loop] in H. destruct (nth_error files k) as [f|] eqn:Ef; [|discriminate]. destruct (minus_array (map fe_frequencies f) ref) as [m0|] eqn:Em; [|discriminate].
    destruct (shift_loop (S k) labels files ref) as [l'|] eqn:El; [|discriminate]. injection H as <-. destruct (IH _ _ El) as [L V]. split; [cbn; lia|].
    intros [|j] m Hm; [injection Hm as <-; exists f; rewrite Nat.add_0_r; auto|]. cbn in Hm. destruct (V j m Hm) as [g [Hg Eg]]. exists g. split; [|exact Eg]. rewrite <- Hg. f_equal. lia.
Qed.
Lemma map2_length_m {A B D} (f : A -> B -> option D) a b m : map2 f a b = Some m -> List.length m = List.length a.
Proof.
  revert b m. induction a as [|x a IH]; intros [|y b] m H; try discriminate; [injection H as <-; reflexivity|].
  cbn in H. destruct (f x y); [|discriminate]. destruct (map2 f a b) eqn:E; [|discriminate]. injection H as <-. cbn. f_equal. eapply IH; eauto.
Qed.
Lemma minus_length a r m : minus_array a [r] = Some m -> List.length m = List.length a.
Proof.
  unfold minus_array. destruct (np_array a) as [a'|] eqn:Ea; [|discriminate]. unfold np_array in Ea. destruct (rectangular a); [|discriminate]. injection Ea as <-.
  destruct (np_array [r]) as [b|] eqn:Eb; [|discriminate]. unfold np_array in Eb. destruct (rectangular [r]); [|discriminate]. injection Eb as <-.
  destruct a as [|x [|x' a]]; cbn [broadcast]; intros H; apply map2_length_m in H; rewrite H; reflexivity.
Qed.
Lemma ragged (rows : list (list R)) r r' : In r rows -> In r' rows -> List.length r <> List.length r' -> np_array rows = None.
Proof.
  intros H H' Hd. unfold np_array, rectangular. destruct (forallb _ rows) eqn:E; [|reflexivity]. rewrite forallb_forall in E. assert (X := E r H). assert (X' := E r' H'). apply Nat.eqb_eq in X, X'. congruence.
Qed.
