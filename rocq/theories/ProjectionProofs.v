From Verif Require Import ProjectionModel ProjectionSpec UnitaryBridge.
From Coq Require Import Lra Lia.
Open Scope R_scope.

Lemma csum_ext n f g : (forall i, (i < n)%nat -> f i = g i) -> csum n f = csum n g.
Proof. induction n as [|n IH]; intros H; [reflexivity|]. cbn [csum]. rewrite IH, H by (intros; try apply H; lia). reflexivity. Qed.
Lemma csum_plus n f g : csum n (fun i => Cplus (f i) (g i)) = Cplus (csum n f) (csum n g).
Proof. induction n as [|n IH]; cbn [csum]; [ring|]. rewrite IH. ring. Qed.
Lemma csum_scal n a f : csum n (fun i => Cmult a (f i)) = Cmult a (csum n f).
Proof. induction n as [|n IH]; cbn [csum]; [ring|]. rewrite IH. ring. Qed.
Lemma csum_scal_r n a f : csum n (fun i => Cmult (f i) a) = Cmult (csum n f) a.
Proof. induction n as [|n IH]; cbn [csum]; [ring|]. rewrite IH. ring. Qed.
Lemma csum_0 n : csum n (fun _ => RtoC 0) = RtoC 0.
Proof. induction n as [|n IH]; cbn [csum]; [reflexivity|]. rewrite IH. ring. Qed.
Lemma csum_swap n m f : csum n (fun i => csum m (fun j => f i j)) = csum m (fun j => csum n (fun i => f i j)).
Proof.
  induction n as [|n IH]; cbn [csum]; [symmetry; apply csum_0|]. rewrite IH. rewrite <- csum_plus. reflexivity.
Qed.
Lemma csum_add n m f : csum (n + m) f = Cplus (csum n f) (csum m (fun i => f (n + i)%nat)).
Proof. induction m as [|m IH]; cbn [csum]; [rewrite Nat.add_0_r; ring|]. rewrite Nat.add_succ_r. cbn [csum]. rewrite IH. ring. Qed.
Lemma csum_flat n m f : csum n (fun i => csum m (fun j => f (i * m + j)%nat)) = csum (n * m) f.
Proof.
  induction n as [|n IH]; [reflexivity|]. cbn [csum]. rewrite IH. replace (S n * m)%nat with (n * m + m)%nat by lia. rewrite csum_add. reflexivity.
Qed.
Lemma csum_delta n i f : (i < n)%nat -> csum n (fun j => if (i =? j)%nat then f j else RtoC 0) = f i.
Proof.
  induction n as [|n IH]; intros H; [lia|]. cbn [csum]. destruct (Nat.eqb_spec i n) as [->|N].
  - assert (E : csum n (fun j => if (n =? j)%nat then f j else RtoC 0) = RtoC 0).
    { rewrite (csum_ext n _ (fun _ => RtoC 0)); [apply csum_0|]. intros j Hj. destruct (Nat.eqb_spec n j); [lia|reflexivity]. }
    rewrite E. ring.
  - rewrite IH by lia. ring.
Qed.
Lemma Cplus_conj' x y : Cconj (Cplus x y) = Cplus (Cconj x) (Cconj y). Proof. apply injective_projections; cbn; ring. Qed.
Lemma Cmult_conj' x y : Cconj (Cmult x y) = Cmult (Cconj x) (Cconj y). Proof. apply injective_projections; cbn; ring. Qed.
Lemma Cconj_conj' x : Cconj (Cconj x) = x. Proof. apply injective_projections; cbn; ring. Qed.
Lemma csum_conj n f : Cconj (csum n f) = csum n (fun i => Cconj (f i)).
Proof. induction n as [|n IH]; cbn [csum]; [apply injective_projections; cbn; ring|]. rewrite Cplus_conj', IH. reflexivity. Qed.

(** wave vector projection *)
Section W.
Context (natoms nprim ndim : nat) (types : nat -> nat) (coords : nat -> nat -> R) (q : nat -> R).
Notation phase := (phase ndim coords q).
Lemma phase_expmi i : phase i = expmi (rdot ndim q (coords i)).
Proof. unfold ProjectionModel.phase, expmi. rewrite cos_neg, sin_neg. reflexivity. Qed.
Lemma add_upto m v i a t ty k : fold_left (fun a k => add_column (types i) k (fun t => Cmult (v t i k) (phase i)) a) (seq 0 m) a t ty k =
  if ((ty =? types i)%nat && (k <? m)%nat)%bool then Cplus (a t ty k) (Cmult (v t i k) (phase i)) else a t ty k.
Proof.
  induction m as [|m IH].
  - cbn. rewrite andb_false_r. reflexivity.
  - rewrite seq_S, fold_left_app. cbn [fold_left]. unfold add_column at 1. cbn [plus].
    destruct (Nat.eqb_spec ty (types i)) as [->|N]; cbn [andb] in *; [|exact IH].
    destruct (Nat.eqb_spec k m) as [->|Nk].
    + rewrite IH. rewrite (proj2 (Nat.ltb_ge m m)) by lia. rewrite (proj2 (Nat.ltb_lt m (S m))) by lia. reflexivity.
    + rewrite IH. destruct (Nat.ltb_spec k m); destruct (Nat.ltb_spec k (S m)); try lia; reflexivity.
Qed.
Lemma add_atom_eq v i a t ty k : add_atom ndim types coords q v i a t ty k =
  if ((ty =? types i)%nat && (k <? ndim)%nat)%bool then Cplus (a t ty k) (Cmult (v t i k) (phase i)) else a t ty k.
Proof. apply add_upto. Qed.
(** atoms that contribute *)
Definition kept (p : Z) (i : nat) : bool := ((p <=? -1)%Z || (Z.of_nat (types i) =? p)%Z)%bool.
Lemma kept_skip p i : (Z.ltb (-1) p && negb (Z.eqb (Z.of_nat (types i)) p))%bool = negb (kept p i).
Proof. unfold kept. rewrite negb_orb. f_equal. rewrite Z.leb_antisym, negb_involutive. reflexivity. Qed.
Lemma project_loop_ok v p : (forall i, (i < natoms)%nat -> kept p i = true -> (types i < nprim)%nat) ->
  exists a, project_loop natoms nprim ndim types coords q v p = Some a /\
  forall t ty k, (k < ndim)%nat -> a t ty k = csum_if natoms (fun i => (types i =? ty)%nat && kept p i)%bool (fun i => Cmult (v t i k) (phase i)).
Proof.
  unfold project_loop. induction natoms as [|n IH]; intros H.
  - eexists. split; [reflexivity|]. intros. reflexivity.
  - destruct IH as [a [E Ha]]; [intros i Hi; apply H; lia|]. rewrite seq_S, fold_left_app, E. cbn [fold_left plus]. unfold atom_step. rewrite kept_skip.
    destruct (kept p n) eqn:Ek; cbn [negb].
    + rewrite (proj2 (Nat.ltb_lt _ _) (H n ltac:(lia) Ek)). eexists. split; [reflexivity|]. intros t ty k Hk. rewrite add_atom_eq, (proj2 (Nat.ltb_lt _ _) Hk), andb_true_r.
      unfold csum_if in *. cbn [csum]. rewrite Ek, andb_true_r, (Nat.eqb_sym ty). rewrite Ha by exact Hk. destruct (types n =? ty)%nat; [reflexivity|ring].
    + exists a. split; [reflexivity|]. intros t ty k Hk. rewrite (Ha t ty k Hk). unfold csum_if. cbn [csum]. rewrite Ek, andb_false_r. ring.
Qed.
Lemma project_loop_fail v p : (exists i, (i < natoms)%nat /\ kept p i = true /\ (nprim <= types i)%nat) -> project_loop natoms nprim ndim types coords q v p = None.
Proof.
  intros [i [Hi [Hk Ht]]]. unfold project_loop.
  assert (N : forall l, fold_left (atom_step nprim ndim types coords q v p) l None = None) by (induction l as [|x l IHl]; [reflexivity|exact IHl]).
  assert (G : forall l a, In i l -> fold_left (atom_step nprim ndim types coords q v p) l (Some a) = None).
  { induction l as [|x l IH]; intros a Hin; [destruct Hin|]. cbn [fold_left]. destruct Hin as [->|Hin].
    - unfold atom_step at 2. rewrite kept_skip, Hk. cbn [negb]. rewrite (proj2 (Nat.ltb_ge _ _) Ht). apply N.
    - unfold atom_step at 2. destruct (_ && _)%bool; [apply IH; exact Hin|]. destruct (_ <? _)%nat; [apply IH; exact Hin|apply N]. }
  apply G. apply in_seq. lia.
Qed.
Lemma csum_if_ext n (p p' : nat -> bool) f f' : (forall i, (i < n)%nat -> p i = p' i) -> (forall i, (i < n)%nat -> p i = true -> f i = f' i) -> csum_if n p f = csum_if n p' f'.
Proof. intros Hp Hf. apply csum_ext. intros i Hi. rewrite <- Hp by exact Hi. destruct (p i) eqn:E; [apply Hf; assumption|reflexivity]. Qed.
Lemma project_ok v m p : (forall i, (i < natoms)%nat -> (types i < nprim)%nat) ->
  exists a, project_onto_wave_vector natoms nprim ndim types coords q v m p = Some a /\
  forall t ty k, (k < ndim)%nat -> a t ty k =
    Cdiv (csum_if natoms (fun i => (types i =? ty)%nat && kept p i)%bool (fun i => Cmult (Cmult (v t i k) (RtoC (sqrt (m i)))) (expmi (rdot ndim q (coords i))))) (RtoC (sqrt (INR natoms / INR nprim))).
Proof.
  intros H. destruct (project_loop_ok (mass_average v m) p) as [a [E Ha]]; [intros i Hi _; apply H, Hi|]. unfold project_onto_wave_vector. rewrite E.
  eexists. split; [reflexivity|]. intros t ty k Hk. cbv beta. rewrite Ha by exact Hk. unfold cells, mass_average. f_equal. apply csum_if_ext; [reflexivity|]. intros i Hi _. rewrite phase_expmi. reflexivity.
Qed.
End W.

(** phonon projection *)
Section Ph.
Context (natoms ndim nmodes : nat) (vc e : nat -> nat -> nat -> C).
Lemma inner_eq k n a t k' : fold_left (fun a i => add_mode k (fun t => dot_conj ndim vc e t k i) a) (seq 0 n) a t k' =
  if (k' =? k)%nat then Cplus (a t k') (csum n (dot_conj ndim vc e t k)) else a t k'.
Proof.
  induction n as [|n IH].
  - cbn. destruct (k' =? k)%nat; [ring|reflexivity].
  - rewrite seq_S, fold_left_app. cbn [fold_left plus]. unfold add_mode at 1. rewrite IH. destruct (k' =? k)%nat; [|reflexivity]. cbn [csum]. ring.
Qed.
Lemma phonon_eq t k : (k < nmodes)%nat -> project_onto_phonon natoms ndim nmodes vc e t k = project_onto_phonon2 natoms ndim vc e t k.
Proof.
  intros Hk. unfold project_onto_phonon, project_onto_phonon2. change (fun a => csum ndim (fun d => Cmult (vc t a d) (Cconj (e k a d)))) with (dot_conj ndim vc e t k).
  assert (G : forall m, fold_left (fun a k => fold_left (fun a i => add_mode k (fun t => dot_conj ndim vc e t k i) a) (seq 0 natoms) a) (seq 0 m) (fun _ _ => RtoC 0) t k
     = if (k <? m)%nat then csum natoms (dot_conj ndim vc e t k) else RtoC 0).
  { induction m as [|m IH]; [reflexivity|]. rewrite seq_S, fold_left_app. cbn [fold_left plus]. rewrite inner_eq, IH.
    destruct (Nat.eqb_spec k m) as [->|N].
    - rewrite (proj2 (Nat.ltb_ge m m)) by lia. rewrite (proj2 (Nat.ltb_lt m (S m))) by lia. ring.
    - destruct (Nat.ltb_spec k m); destruct (Nat.ltb_spec k (S m)); try lia; reflexivity. }
  rewrite G, (proj2 (Nat.ltb_lt _ _) Hk). reflexivity.
Qed.
End Ph.
Lemma Cmod2 z : RtoC (Cmod z ^ 2) = Cmult z (Cconj z).
Proof.
  unfold Cmod. rewrite pow2_sqrt.
  - destruct z as [x y]. unfold RtoC, Cmult, Cconj. cbn [fst snd]. f_equal; ring.
  - assert (H1 := pow2_ge_0 (fst z)). assert (H2 := pow2_ge_0 (snd z)). lra.
Qed.
Lemma energy1_csum n v : RtoC (energy1 n v) = csum n (fun i => Cmult (v i) (Cconj (v i))).
Proof. induction n as [|n IH]; [reflexivity|]. cbn [energy1 csum]. rewrite RtoC_plus, IH, Cmod2. reflexivity. Qed.
Lemma energy2_csum n m v : RtoC (energy2 n m v) = csum n (fun i => csum m (fun j => Cmult (v i j) (Cconj (v i j)))).
Proof. induction n as [|n IH]; [reflexivity|]. cbn [energy2 csum]. rewrite RtoC_plus, IH, energy1_csum. reflexivity. Qed.
Lemma RtoC_inj' x y : RtoC x = RtoC y -> x = y. Proof. intros H. injection H. tauto. Qed.

(** Parseval for flat vectors *)
Lemma parseval n (e : nat -> nat -> C) (v : nat -> C) :
  (forall k l, (k < n)%nat -> (l < n)%nat -> csum n (fun j => Cmult (e k j) (Cconj (e l j))) = if (k =? l)%nat then RtoC 1 else RtoC 0) ->
  csum n (fun k => let x := csum n (fun j => Cmult (v j) (Cconj (e k j))) in Cmult x (Cconj x)) = csum n (fun j => Cmult (v j) (Cconj (v j))).
Proof.
  intros H. assert (G := @columns_orthonormal n e H). cbv zeta.
  transitivity (csum n (fun k => csum n (fun i => csum n (fun j => Cmult (Cmult (v i) (Cconj (v j))) (Cmult (Cconj (e k i)) (e k j)))))).
  { apply csum_ext. intros k Hk. rewrite csum_conj. rewrite <- csum_scal_r. apply csum_ext. intros i Hi. rewrite <- csum_scal. apply csum_ext. intros j Hj.
    rewrite Cmult_conj', Cconj_conj'. ring. }
  rewrite csum_swap. apply csum_ext. intros i Hi. rewrite csum_swap.
  transitivity (csum n (fun j => if (i =? j)%nat then Cmult (v i) (Cconj (v j)) else RtoC 0)).
  - apply csum_ext. intros j Hj. rewrite csum_scal, G by assumption. destruct (i =? j)%nat; ring.
  - rewrite (csum_delta n i (fun j => Cmult (v i) (Cconj (v j))) Hi). reflexivity.
Qed.
Lemma nested_flat natoms ndim (f : nat -> nat -> C) : (0 < ndim)%nat ->
  csum natoms (fun i => csum ndim (fun d => f i d)) = csum (natoms * ndim) (fun j => f (j / ndim)%nat (j mod ndim)%nat).
Proof.
  intros H. rewrite <- csum_flat. apply csum_ext. intros i Hi. apply csum_ext. intros d Hd.
  rewrite Nat.div_add_l, Nat.div_small, Nat.add_0_r by lia. rewrite (Nat.add_comm (i * ndim)), Nat.mod_add, Nat.mod_small by lia. reflexivity.
Qed.
Lemma energy_conserved natoms ndim (vc e : nat -> nat -> nat -> C) t : (0 < ndim)%nat -> orthonormal natoms ndim (natoms * ndim) e ->
  energy1 (natoms * ndim) (project_onto_phonon natoms ndim (natoms * ndim) vc e t) = energy2 natoms ndim (vc t).
Proof.
  intros Hd Ho. apply RtoC_inj'. rewrite energy1_csum, energy2_csum.
  transitivity (csum (natoms * ndim) (fun k => let x := csum (natoms * ndim) (fun j => Cmult (vc t (j / ndim)%nat (j mod ndim)%nat) (Cconj (e k (j / ndim)%nat (j mod ndim)%nat))) in Cmult x (Cconj x))).
  - apply csum_ext. intros k Hk. cbv zeta. rewrite phonon_eq by exact Hk. unfold project_onto_phonon2.
    rewrite (nested_flat natoms ndim (fun i d => Cmult (vc t i d) (Cconj (e k i d))) Hd). reflexivity.
  - rewrite (parseval (natoms * ndim) (fun k j => e k (j / ndim)%nat (j mod ndim)%nat) (fun j => vc t (j / ndim)%nat (j mod ndim)%nat)).
    + symmetry. apply (nested_flat natoms ndim (fun i d => Cmult (vc t i d) (Cconj (vc t i d))) Hd).
    + intros k l Hk Hl. rewrite <- (nested_flat natoms ndim (fun i d => Cmult (e k i d) (Cconj (e l i d))) Hd). apply Ho; assumption.
Qed.
