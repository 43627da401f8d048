From Verif Require Import HarmonicModel HarmonicSpec.
From Coq Require Import Lra Lia.
Lemma sumn_S n f : sumn (S n) f = sumn n f + f n.
Proof.
  unfold sumn. rewrite seq_S, map_app, fold_right_app. cbn [map fold_right plus]. generalize (map f (seq 0 n)). intros l. induction l as [|x l IH]; cbn [fold_right]; [ring|rewrite IH; ring].
Qed.
Lemma sumn_Sum n f : sumn n f = Sum n f.
Proof. induction n as [|n IH]; [reflexivity|]. rewrite sumn_S, IH. reflexivity. Qed.
Lemma Sum_ext n f g : (forall i, (i < n)%nat -> f i = g i) -> Sum n f = Sum n g.
Proof. induction n as [|n IH]; intros H; [reflexivity|]. cbn. rewrite IH by (intros; apply H; lia). rewrite H by lia. reflexivity. Qed.
Lemma Sum_scal n c f : Sum n (fun i => c * f i) = c * Sum n f.
Proof. induction n as [|n IH]; cbn; [ring|]. rewrite IH. ring. Qed.
Lemma Sum_plus n f g : Sum n (fun i => f i + g i) = Sum n f + Sum n g.
Proof. induction n as [|n IH]; cbn; [ring|]. rewrite IH. ring. Qed.
Lemma Sum_zero n : Sum n (fun _ => 0) = 0.
Proof. induction n as [|n IH]; cbn; [ring|]. rewrite IH. ring. Qed.
Lemma fold_Sum n f x : fold_left (fun x i => x + f i) (seq 0 n) x = x + Sum n f.
Proof. induction n as [|n IH]; [cbn; ring|]. rewrite seq_S, fold_left_app, IH. cbn. ring. Qed.
Lemma fold_left_ext {A B} (f g : A -> B -> A) l : (forall a b, f a b = g a b) -> forall x, fold_left f l x = fold_left g l x.
Proof. intros H. induction l as [|b l IH]; intros x; [reflexivity|]. cbn. rewrite H. apply IH. Qed.
Section P.
Context (dims natoms nprim nq nf : nat) (pos : nat -> nat -> R) (mass : nat -> R) (atype : nat -> nat) (q : nat -> nat -> R) (fr : nat -> nat -> R) (ev : nat -> nat -> nat -> nat -> C).
Notation amp := (amplitude dims natoms nprim nq).
Notation term := (term dims natoms nprim nq pos mass atype q fr ev).
Notation coordinate := (coordinate dims natoms nprim nq nf pos mass atype q fr ev).
Notation angle i k a t := (Sum dims (fun c => q i c * pos a c) - 2 * PI * fr i k * t).
Lemma term_value T p0 t k i a c : term T p0 t k i a c = exp p0 * (amp T (fr i k) / sqrt (mass a) * wave (ev i k (atype a) c) (angle i k a t)).
Proof.
  unfold HarmonicModel.term, normal_mode, phase, cexp, wave. cbn [fst snd RtoC Cmult].
  rewrite sumn_Sum, exp_0. set (A := Sum dims _).
  replace (A - 2 * PI * fr i k * t) with (A + - fr i k * 2 * PI * t) by ring. rewrite cos_plus, sin_plus. unfold Rdiv. ring.
Qed.
Definition included (mf : R) k i := if Rlt_dec mf (Rabs (fr i k)) then 1 else 0.
Lemma coordinate_value T mf p0 t a c : coordinate T mf p0 t a c =
  pos a c + Sum nf (fun k => Sum nq (fun i => included mf k i * term T p0 t k i a c)).
Proof.
  unfold HarmonicModel.coordinate. rewrite (fold_left_ext _ (fun x k => x + Sum nq (fun i => included mf k i * term T p0 t k i a c))); [apply fold_Sum|].
  intros x k. rewrite (fold_left_ext _ (fun x i => x + included mf k i * term T p0 t k i a c)); [apply fold_Sum|].
  intros y i. unfold included. destruct (Rlt_dec mf (Rabs (fr i k))); ring.
Qed.
Lemma nth_map_seq {A} (f : nat -> A) n i d : (i < n)%nat -> nth i (map f (seq 0 n)) d = f i.
Proof. intros H. rewrite (nth_indep _ d (f 0%nat)) by (rewrite map_length, seq_length; lia). rewrite map_nth, seq_nth by lia. reflexivity. Qed.
End P.
Lemma wave_shift e th d : wave e (th + d) + wave e (th - d) = 2 * cos d * wave e th.
Proof. unfold wave. rewrite cos_plus, cos_minus, sin_plus, sin_minus. ring. Qed.
Lemma wave_quarter e th : wave e th * wave e th + wave e (th - PI / 2) * wave e (th - PI / 2) = modulus2 e.
Proof.
  unfold wave, modulus2. rewrite cos_minus, sin_minus, cos_PI2, sin_PI2. assert (H := sin2_cos2 th). unfold Rsqr in H.
  transitivity ((fst e * fst e + snd e * snd e) * (sin th * sin th + cos th * cos th)); [ring|rewrite H; ring].
Qed.
(** counting by type *)
Lemma Sum_occ (n : nat) (g : nat -> R) l : (forall x, In x l -> (x < n)%nat) -> fold_right Rplus 0 (map g l) = Sum n (fun p => INR (count_occ Nat.eq_dec l p) * g p).
Proof.
  induction l as [|x l IH]; intros H; cbn [map fold_right count_occ].
  - rewrite (Sum_ext n _ (fun _ => 0)) by (intros; cbn; ring). symmetry. apply Sum_zero.
  - rewrite IH by (intros y Hy; apply H; right; exact Hy). assert (Hx := H x (or_introl eq_refl)). clear H IH.
    assert (E : forall m, Sum m (fun p => INR (if Nat.eq_dec x p then S (count_occ Nat.eq_dec l p) else count_occ Nat.eq_dec l p) * g p) =
      (if Nat.ltb x m then g x else 0) + Sum m (fun p => INR (count_occ Nat.eq_dec l p) * g p)).
    { induction m as [|m IH]; [cbn; ring|]. cbn [Sum]. rewrite IH. destruct (Nat.ltb_spec x m); destruct (Nat.ltb_spec x (S m)); destruct (Nat.eq_dec x m); try lia; rewrite ?S_INR; subst; ring. }
    rewrite E. replace (Nat.ltb x n) with true by (symmetry; apply Nat.ltb_lt; lia). reflexivity.
Qed.
