From Verif Require Import FullSpectrumModel FullSpectrumSpec.
From Coq Require Import Lra.
Section P.
Context (col : Type) (nf : nat) (power : col -> list R).
Notation spectra := (spectra col nf power).
Notation reshaped := (reshaped col).
Notation accumulated := (accumulated col nf power).
Notation full := (get_power_spectrum_full col nf power).
Lemma sum_total l : sum l = total l. Proof. reflexivity. Qed.
Lemma total_app a b : total (a ++ b) = total a + total b.
Proof. induction a as [|x a IH]; [unfold total; cbn; ring|]. cbn [app]. change (x + total (a ++ b) = x + total a + total b). rewrite IH. ring. Qed.
Lemma total_plus {A} (f g : A -> R) l : total (map (fun a => f a + g a) l) = total (map f l) + total (map g l).
Proof. induction l as [|x l IH]; [unfold total; cbn; ring|]. change (f x + g x + total (map (fun a => f a + g a) l) = f x + total (map f l) + (g x + total (map g l))). rewrite IH. ring. Qed.
Lemma total_zero {A} (l : list A) : total (map (fun _ => 0) l) = 0.
Proof. induction l as [|x l IH]; [reflexivity|]. change (0 + total (map (fun _ => 0) l) = 0). rewrite IH. ring. Qed.
Lemma double_swap a b f : double_sum a b f = total (map (fun j => total (map (fun i => f i j) a)) b).
Proof.
  unfold double_sum. induction a as [|i a IH]; cbn [map].
  - cbn. symmetry. apply total_zero.
  - change (total (map (f i) b) + total (map (fun i => total (map (f i) b)) a) = total (map (fun j => f i j + total (map (fun i => f i j) a)) b)).
    rewrite total_plus, IH. reflexivity.
Qed.
Lemma double_ext a b f g : (forall i j, In i a -> In j b -> f i j = g i j) -> double_sum a b f = double_sum a b g.
Proof. intros H. unfold double_sum. f_equal. apply map_ext_in. intros i Hi. f_equal. apply map_ext_in. intros j Hj. apply H; assumption. Qed.
Lemma double_flat a b f : double_sum a b f = total (map (fun p => f (fst p) (snd p)) (list_prod a b)).
Proof.
  unfold double_sum. induction a as [|i a IH]; cbn [map list_prod]; [reflexivity|].
  rewrite map_app, total_app, map_map. cbn [fst snd]. rewrite <- IH. reflexivity.
Qed.
Lemma total_flat {A B} (g : B -> R) (h : A -> list B) l : total (map g (flat_map h l)) = total (map (fun a => total (map g (h a))) l).
Proof. induction l as [|a l IH]; [reflexivity|]. cbn [flat_map map]. rewrite map_app, total_app, IH. reflexivity. Qed.

Definition value (v : varray col) (k : nat) : R := double_sum (seq 0 (natoms v)) (seq 0 (ndims v)) (fun i j => nth k (power (at_ v i j)) 0).
Lemma spectra_reshaped v : sum_axis1 (spectra (reshaped v)) = map (value v) (seq 0 nf).
Proof.
  unfold sum_axis1, FullSpectrumModel.spectra. rewrite map_map. apply map_ext. intros k. unfold reshaped, FullSpectrumModel.reshaped, value.
  rewrite double_swap. change sum with total. rewrite total_flat. f_equal. apply map_ext. intros j. rewrite map_map. reflexivity.
Qed.
Lemma add_matrix_col n (g : nat -> R) c : add_matrix (map (fun k => [g k]) (seq 0 n)) (map (fun k => map (fun c => nth k (power c) 0) [c]) (seq 0 n))
  = map (fun k => [g k + nth k (power c) 0]) (seq 0 n).
Proof. generalize 0%nat as s. induction n as [|n IH]; intros s; [reflexivity|]. cbn [seq map add_matrix]. rewrite IH. reflexivity. Qed.
Lemma accumulated_from v l g : fold_left (fun acc ij => add_matrix acc (spectra [at_ v (fst ij) (snd ij)])) l (map (fun k => [g k]) (seq 0 nf))
  = map (fun k => [g k + total (map (fun p : nat * nat => nth k (power (at_ v (fst p) (snd p))) 0) l)]) (seq 0 nf).
Proof.
  revert g. induction l as [|p l IH]; intros g.
  - cbn. apply map_ext. intros k. f_equal. cbn. ring.
  - cbn [fold_left]. unfold FullSpectrumModel.spectra at 2. rewrite add_matrix_col.
    rewrite (IH (fun k => g k + nth k (power (at_ v (fst p) (snd p))) 0)). apply map_ext. intros k. cbn. f_equal. unfold total. ring.
Qed.
Lemma sum_accumulated v : sum_axis1 (accumulated v) = map (value v) (seq 0 nf).
Proof.
  unfold accumulated, FullSpectrumModel.accumulated. replace (repeat [0] nf) with (map (fun _ : nat => [0]) (seq 0 nf)).
  - rewrite (accumulated_from v _ (fun _ => 0)). unfold sum_axis1. rewrite map_map. apply map_ext. intros k. unfold value. rewrite double_flat. cbn. ring.
  - generalize 0%nat. induction nf as [|n IH]; intros s; cbn; [reflexivity|]. rewrite IH. reflexivity.
Qed.
Lemma full_value s types dims v coordinate :
  full s types dims v coordinate None =
  (if (0 <=? project_on_atom s)%Z then
     let idx := indices_of types (project_on_atom s) in
     if Nat.eqb (length idx) 0 then None else if (Z.of_nat dims <=? coordinate)%Z then None
     else if (-1 <? coordinate)%Z then Some (map (value (select_coordinate col v idx (Z.to_nat coordinate))) (seq 0 nf))
     else Some (map (value (select_atoms col v idx)) (seq 0 nf))
   else Some (map (value v) (seq 0 nf))).
Proof.
  assert (H : forall w, sum_axis1 (if silent s then accumulated w else spectra (reshaped w)) = map (value w) (seq 0 nf)).
  { intros w. destruct (silent s); [apply sum_accumulated|apply spectra_reshaped]. }
  unfold full, get_power_spectrum_full. destruct (0 <=? project_on_atom s)%Z; [|rewrite H; reflexivity]. cbv zeta.
  destruct (Nat.eqb _ 0); [reflexivity|]. destruct (Z.of_nat dims <=? coordinate)%Z; [reflexivity|].
  destruct (-1 <? coordinate)%Z; rewrite H; reflexivity.
Qed.
Lemma map_nth_seq {A B} (d : A) (g : A -> B) l : map (fun i => g (nth i l d)) (seq 0 (length l)) = map g l.
Proof.
  induction l as [|a l IH] using rev_ind; [reflexivity|]. rewrite app_length, Nat.add_1_r, seq_S, map_app, map_app. cbn [map plus]. f_equal.
  - rewrite <- IH. apply map_ext_in. intros i Hi. apply in_seq in Hi. rewrite app_nth1 by lia. reflexivity.
  - rewrite app_nth2, Nat.sub_diag by lia. reflexivity.
Qed.
Lemma value_atoms v idx k : value (select_atoms col v idx) k = double_sum idx (seq 0 (ndims v)) (fun i j => nth k (power (at_ v i j)) 0).
Proof.
  unfold value, select_atoms, double_sum. cbn [natoms ndims at_]. f_equal.
  exact (map_nth_seq 0%nat (fun i => total (map (fun j => nth k (power (at_ v i j)) 0) (seq 0 (ndims v)))) idx).
Qed.
Lemma value_coordinate v idx c k : value (select_coordinate col v idx c) k = double_sum idx [c] (fun i j => nth k (power (at_ v i j)) 0).
Proof.
  unfold value, select_coordinate, double_sum. cbn [natoms ndims at_ seq]. f_equal.
  exact (map_nth_seq 0%nat (fun i => total (map (fun j => nth k (power (at_ v i j)) 0) [c])) idx).
Qed.
(** atoms split by type *)
Lemma split_types types nt f : (forall t, In t types -> (0 <= t < Z.of_nat nt)%Z) ->
  total (map (fun t => total (map f (indices_of types (Z.of_nat t)))) (seq 0 nt)) = total (map f (seq 0 (length types))).
Proof.
  intros H. unfold indices_of. generalize (seq_length (length types) 0).
  assert (I : forall i, In i (seq 0 (length types)) -> (0 <= nth i types 0 < Z.of_nat nt)%Z).
  { intros i Hi. apply in_seq in Hi. apply H, nth_In. lia. }
  intros _. revert I. generalize (seq 0 (length types)). intros l I.
  rewrite <- (map_ext (fun t => total (map (fun i => if Z.eqb (nth i types 0%Z) (Z.of_nat t) then f i else 0) l))).
  - change (total (map (fun t => total (map (fun i => if (nth i types 0 =? Z.of_nat t)%Z then f i else 0) l)) (seq 0 nt)))
      with (double_sum (seq 0 nt) l (fun t i => if (nth i types 0 =? Z.of_nat t)%Z then f i else 0)).
    rewrite double_swap. f_equal. apply map_ext_in. intros i Hi. specialize (I i Hi). clear - I.
    assert (G : forall n s, total (map (fun t => if (nth i types 0 =? Z.of_nat t)%Z then f i else 0) (seq s n)) =
      if ((Z.of_nat s <=? nth i types 0) && (nth i types 0 <? Z.of_nat (s + n)))%Z%bool then f i else 0).
    { induction n as [|n IH]; intros s; cbn [seq map].
      - destruct (Z.leb_spec (Z.of_nat s) (nth i types 0%Z)); destruct (Z.ltb_spec (nth i types 0%Z) (Z.of_nat (s + 0))); cbn; try reflexivity. lia.
      - cbn [total fold_right]. fold (total (map (fun t => if (nth i types 0 =? Z.of_nat t)%Z then f i else 0) (seq (S s) n))). rewrite IH.
        destruct (Z.eqb_spec (nth i types 0%Z) (Z.of_nat s)); destruct (Z.leb_spec (Z.of_nat s) (nth i types 0%Z)); destruct (Z.leb_spec (Z.of_nat (S s)) (nth i types 0%Z));
          destruct (Z.ltb_spec (nth i types 0%Z) (Z.of_nat (s + S n))); destruct (Z.ltb_spec (nth i types 0%Z) (Z.of_nat (S s + n))); cbn [andb]; try lia; ring. }
    rewrite G. replace (Z.of_nat 0 <=? nth i types 0)%Z with true by (symmetry; apply Z.leb_le; lia).
    replace (nth i types 0 <? Z.of_nat (0 + nt))%Z with true by (symmetry; apply Z.ltb_lt; lia). reflexivity.
  - intros t. clear. induction l as [|i l IH]; [reflexivity|]. cbn [map filter total fold_right] in *. unfold total in IH. rewrite IH.
    destruct (Z.eqb _ _); cbn; [reflexivity|ring].
Qed.
(** partials *)
Lemma add_matrix_rows n (g h : nat -> list R) :
  add_matrix (map g (seq 0 n)) (map h (seq 0 n)) = map (fun k => add_rows (g k) (h k)) (seq 0 n).
Proof. generalize 0%nat. induction n as [|n IH]; intros s; [reflexivity|]. cbn. rewrite IH. reflexivity. Qed.
Lemma add_rows_map {A} (f g : A -> R) l : add_rows (map f l) (map g l) = map (fun a => f a + g a) l.
Proof. induction l as [|a l IH]; [reflexivity|]. cbn. rewrite IH. reflexivity. Qed.
Lemma partials_value v : (3 <= ndims v)%nat -> get_power_spectrum_partials col nf power v =
  Some (map (fun k => map (fun i => nth k (power (at_ v i 0)) 0 + nth k (power (at_ v i 1)) 0 + nth k (power (at_ v i 2)) 0) (seq 0 (natoms v))) (seq 0 nf)).
Proof.
  intros H. unfold get_power_spectrum_partials. replace (Nat.ltb (ndims v) 3) with false by (symmetry; apply Nat.ltb_ge; lia).
  f_equal. cbn [fold_left]. unfold FullSpectrumModel.spectra. rewrite !add_matrix_rows.
  apply map_ext. intros k. rewrite !map_map, !add_rows_map. reflexivity.
Qed.
End P.
