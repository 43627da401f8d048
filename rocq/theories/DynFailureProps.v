(** C14 (continued) and C118: what a Dynamics object answers after a request that failed. *)
From Verif Require Import DynFailureModel DynamicsProofs.
From Coq Require Import Lra.
Open Scope R_scope.

Section Spec.
Context (supercell cell : mat) (unit_atoms dims : nat) (relative : nat -> nat -> list R) (dt : R) (sqrt_mass : nat -> R) (given : option (nat -> nat -> list R)).
(** the velocities of the object: those supplied, or the time derivative of the trajectory *)
Definition true_velocity (i j : nat) : list R := match given with Some v => v i j | None => np_gradient (relative i j) dt end.
(** the number of atoms in the m0 x m1 x m2 supercell *)
Definition atoms_in (m : Z * Z * Z) : nat := (unit_atoms * Z.to_nat (fst (fst m)) * Z.to_nat (snd (fst m)) * Z.to_nat (snd m))%nat.
(** the nearest integers to the ratios of the edge lengths *)
Definition nearest (m : Z * Z * Z) : Prop :=
  fst (fst m) = around (vnorm (r0 supercell) / vnorm (r0 cell)) /\ snd (fst m) = around (vnorm (r1 supercell) / vnorm (r1 cell)) /\
  snd m = around (vnorm (r2 supercell) / vnorm (r2 cell)).
Definition right (m : Z * Z * Z) (r : request) (a : answer) : Prop :=
  match r with
  | SupercellMatrix => a = Factors m
  | Velocity => exists v, a = Columns v /\ forall i j, (i < atoms_in m)%nat -> (j < dims)%nat -> v i j = true_velocity i j
  | MassWeighted => exists v, a = Columns v /\ forall i j, (i < atoms_in m)%nat -> (j < dims)%nat -> v i j = map (Rmult (sqrt_mass i)) (true_velocity i j)
  end.
End Spec.
Definition never : nat -> bool := fun _ => false.

Section Proofs.
Context (tol : R) (supercell cell : mat) (unit_atoms dims : nat) (relative : nat -> nat -> list R) (dt : R) (sqrt_mass : nat -> R)
  (memory : nat -> nat -> list R) (given : option (nat -> nat -> list R)).
Notation rnd := (rounded supercell cell).
Notation tv := (true_velocity relative dt given).
Notation N := (atoms_in unit_atoms rnd).
Lemma rounded_nearest : nearest supercell cell rnd. Proof. repeat split. Qed.
Lemma accepted_rounded m : supercell_matrix tol supercell cell = Some m -> m = rnd.
Proof. unfold supercell_matrix. cbv zeta. destruct (Rlt_dec _ _); [discriminate|]. intros H. injection H as <-. reflexivity. Qed.

Definition good (s : st) : Prop := (matrix s = None \/ matrix s = Some rnd) /\
  (velocity s = None /\ given = None \/ exists v, velocity s = Some v /\ forall i j, (i < N)%nat -> (j < dims)%nat -> v i j = tv i j) /\
  (weighted s = None \/ exists w, weighted s = Some w /\ forall i j, (i < N)%nat -> (j < dims)%nat -> w i j = map (Rmult (sqrt_mass i)) (tv i j)).
Context (Hm : supercell_matrix tol supercell cell = Some rnd).
Context (Hlen : given = None -> forall i j, (i < N)%nat -> (j < dims)%nat -> (2 <= length (relative i j))%nat).
Notation get_matrix := (get_supercell_matrix tol supercell cell never).
Lemma matrix_ok s : matrix s = None \/ matrix s = Some rnd -> exists s', get_matrix s = (Some rnd, s') /\ matrix s' = Some rnd /\ velocity s' = velocity s /\ weighted s' = weighted s.
Proof.
  intros [H|H]; unfold get_supercell_matrix, bind, gets; rewrite H.
  - unfold assign, never. rewrite Hm. cbn. eexists. split; [reflexivity|]. auto.
  - exists s. auto.
Qed.
Lemma number_ok s : matrix s = Some rnd -> get_number_of_atoms tol supercell cell unit_atoms never s = (Some N, s).
Proof. intros H. unfold get_number_of_atoms, get_supercell_matrix, bind, gets. rewrite H. reflexivity. Qed.
Lemma write_at i j x a i' j' : write i j x a i' j' = if (i' =? i)%nat && (j' =? j)%nat then x else a i' j'. Proof. reflexivity. Qed.
Lemma velocity_loop l : forall s v, given = None -> (forall p, In p l -> (fst p < N)%nat /\ (snd p < dims)%nat) -> velocity s = Some v ->
  exists s' v', for_each (fun ij => bind (gradient dt (relative (fst ij) (snd ij))) (fun g =>
          assign never (fun s => match velocity s with Some v => put_velocity (write (fst ij) (snd ij) g v) s | None => s end))) l s = (Some tt, s') /\
  velocity s' = Some v' /\ (forall i j, In (i, j) l -> v' i j = tv i j) /\ (forall i j, ~ In (i, j) l -> v' i j = v i j) /\ matrix s' = matrix s /\ weighted s' = weighted s.
Proof.
  induction l as [|[i0 j0] l IH]; intros s v G Hl Hv.
  - exists s, v. repeat split; auto. intros i j [].
  - cbn [for_each]. unfold bind at 1. unfold bind at 1, gradient at 1. cbn [fst snd].
    destruct (Hl (i0, j0) (or_introl eq_refl)) as [Hi Hj]. cbn [fst snd] in Hi, Hj. pose proof (Hlen G i0 j0 Hi Hj) as L2.
    replace (length (relative i0 j0) <? 2)%nat with false by (symmetry; apply Nat.ltb_ge; exact L2). unfold ret at 1. unfold assign at 1, never at 1. rewrite Hv.
    destruct (IH (tick (put_velocity (write i0 j0 (np_gradient (relative i0 j0) dt) v) s)) (write i0 j0 (np_gradient (relative i0 j0) dt) v) G) as (s' & v' & E & V & A & B & C).
    + intros p Hp. apply Hl. right. exact Hp.
    + reflexivity.
    + cbn [fst snd] in E. exists s', v'. split; [exact E|]. split; [exact V|].
      assert (D : forall i j, {In (i, j) l} + {~ In (i, j) l}) by (intros; apply in_dec; intros [a b] [c d]; destruct (Nat.eq_dec a c), (Nat.eq_dec b d); subst; auto; right; congruence).
      assert (T0 : np_gradient (relative i0 j0) dt = tv i0 j0) by (unfold true_velocity; rewrite G; reflexivity).
      split; [|split; [|exact C]].
      * intros i j Hin. destruct (D i j) as [I|I]; [apply A; exact I|]. rewrite (B i j I). destruct Hin as [E0|Hin]; [|contradiction]. injection E0 as <- <-.
        rewrite write_at, !Nat.eqb_refl. exact T0.
      * intros i j Hn. rewrite B by (intros I; apply Hn; right; exact I). rewrite write_at.
        destruct (Nat.eqb_spec i i0); destruct (Nat.eqb_spec j j0); subst; cbn; try reflexivity. exfalso. apply Hn. left. reflexivity.
Qed.
Lemma velocity_ok s : good s -> exists s' v, get_velocity tol supercell cell unit_atoms dims relative dt never s = (Some v, s') /\
  (forall i j, (i < N)%nat -> (j < dims)%nat -> v i j = tv i j) /\ velocity s' = Some v /\ (matrix s' = None \/ matrix s' = Some rnd) /\ weighted s' = weighted s /\ (velocity s = Some v -> s' = s).
Proof.
  intros (A & B & C). unfold get_velocity, bind at 1, gets at 1. destruct B as [[B G]|(v & B & Hv)]; rewrite B.
  - destruct (matrix_ok s A) as (s1 & E1 & M1 & V1 & W1). unfold bind at 1, get_relative, bind at 1. rewrite E1. unfold ret at 1.
    unfold bind at 1, assign at 1, never at 1. unfold bind at 1. rewrite number_ok by (cbn; exact M1). unfold bind at 1.
    destruct (velocity_loop (list_prod (seq 0 N) (seq 0 dims)) (tick (put_velocity (fun i j => repeat 0 (length (relative i j))) s1))
      (fun i j => repeat 0 (length (relative i j))) G) as (s' & v' & E & V & P & _ & M' & W').
    + intros p Hp. destruct p as [i j]. apply in_prod_iff in Hp. rewrite !in_seq in Hp. cbn. lia.
    + reflexivity.
    + rewrite E. unfold bind, gets. rewrite V. exists s', v'. split; [reflexivity|]. split; [intros i j Hi Hj; apply P, in_prod; apply in_seq; lia|].
      split; [exact V|]. cbn in M', W'. rewrite M', W', M1, W1. split; [auto|]. split; [reflexivity|discriminate].
  - exists s, v. repeat split; auto.
Qed.
Lemma weighted_loop l : forall s w v, velocity s = Some v -> (forall i j, (i < N)%nat -> (j < dims)%nat -> v i j = tv i j) -> (forall i, In i l -> (i < N)%nat) -> weighted s = Some w ->
  exists s' w', for_each (fun i => bind (get_velocity tol supercell cell unit_atoms dims relative dt never) (fun v =>
          assign never (fun s => match weighted s with Some w => put_weighted (write_atom i (fun j => map (Rmult (sqrt_mass i)) (v i j)) w) s | None => s end))) l s = (Some tt, s') /\
  weighted s' = Some w' /\ (forall i j, In i l -> (j < dims)%nat -> w' i j = map (Rmult (sqrt_mass i)) (tv i j)) /\ (forall i j, ~ In i l -> w' i j = w i j) /\ matrix s' = matrix s /\ velocity s' = velocity s.
Proof.
  induction l as [|i0 l IH]; intros s w v Hv Hr Hl Hw.
  - exists s, w. repeat split; auto. intros i j [].
  - cbn [for_each]. unfold bind at 1. unfold bind at 1, get_velocity at 1. unfold bind at 1, gets at 1. rewrite Hv. unfold ret at 1. unfold assign at 1, never at 1. rewrite Hw.
    set (w0 := write_atom i0 (fun j => map (Rmult (sqrt_mass i0)) (v i0 j)) w).
    destruct (IH (tick (put_weighted w0 s)) w0 v Hv Hr (fun i Hi => Hl i (or_intror Hi)) eq_refl) as (s' & w' & E & W & A & B & C).
    exists s', w'. split; [exact E|]. split; [exact W|]. split; [|split; [|cbn in C; rewrite <- Hv; exact C]].
    + intros i j Hin Hj. destruct (in_dec Nat.eq_dec i l) as [I|I]; [apply A; assumption|]. rewrite (B i j I). destruct Hin as [<-|Hin]; [|contradiction].
      unfold w0, write_atom. rewrite Nat.eqb_refl, Hr; [reflexivity|apply Hl; left; reflexivity|exact Hj].
    + intros i j Hn. rewrite B by (intros I; apply Hn; right; exact I). unfold w0, write_atom. destruct (Nat.eqb_spec i i0); [|reflexivity]. exfalso. apply Hn. left. auto.
Qed.
Lemma weighted_ok s : good s -> exists s' w, get_velocity_mass_average tol supercell cell unit_atoms dims relative dt sqrt_mass memory never s = (Some w, s') /\
  (forall i j, (i < N)%nat -> (j < dims)%nat -> w i j = map (Rmult (sqrt_mass i)) (tv i j)) /\ good s'.
Proof.
  intros G. pose proof G as (A & B & C). unfold get_velocity_mass_average, bind at 1, gets at 1. destruct C as [C|(w & C & Hw)]; rewrite C.
  - destruct (velocity_ok s G) as (s1 & v & E & Hv & V1 & M1 & W1 & _). unfold bind at 1. rewrite E. unfold bind at 1, assign at 1, never at 1.
    destruct (matrix_ok (tick (put_weighted memory s1)) M1) as (s2 & E2 & M2 & V2 & W2). unfold bind at 1. rewrite E2. unfold bind at 1. rewrite number_ok by exact M2. unfold bind at 1.
    destruct (weighted_loop (seq 0 N) s2 memory v) as (s3 & w & E3 & W3 & P & _ & M3 & V3).
    + rewrite V2. exact V1.
    + exact Hv.
    + intros i Hi. apply in_seq in Hi. lia.
    + rewrite W2. reflexivity.
    + rewrite E3. unfold bind, gets. rewrite W3. exists s3, w. split; [reflexivity|]. assert (P' : forall i j, (i < N)%nat -> (j < dims)%nat -> w i j = map (Rmult (sqrt_mass i)) (tv i j)).
      { intros i j Hi Hj. apply P; [apply in_seq; lia|exact Hj]. }
      split; [exact P'|]. unfold good. rewrite M3, M2, V3, V2. cbn [velocity tick put_weighted]. rewrite V1, W3. split; [auto|]. split; [right; exists v; auto|right; exists w; auto].
  - exists s, w. split; [reflexivity|]. split; [exact Hw|exact G].
Qed.
Notation ask := (ask tol supercell cell unit_atoms dims relative dt sqrt_mass memory never).
Lemma ask_ok r s : good s -> good (snd (ask r s)) /\ exists a, fst (ask r s) = Some a /\ right unit_atoms dims relative dt sqrt_mass given rnd r a.
Proof.
  intros G. destruct r; cbn [DynFailureModel.ask]; unfold bind.
  - destruct (matrix_ok s (proj1 G)) as (s' & E & M' & V' & W'). rewrite E. cbn. split; [|exists (Factors rnd); split; reflexivity]. unfold good in *. rewrite M', V', W'. destruct G as (_ & G2 & G3). auto.
  - destruct (velocity_ok s G) as (s' & v & E & Hv & V' & M' & W' & _). rewrite E. cbn [ret fst snd]. split.
    + unfold good in *. rewrite V', W'. split; [exact M'|]. split; [right; exists v; auto|exact (proj2 (proj2 G))].
    + exists (Columns v). split; [reflexivity|]. exists v. auto.
  - destruct (weighted_ok s G) as (s' & w & E & Hw & G'). rewrite E. cbn [ret fst snd]. split; [exact G'|]. exists (Columns w). split; [reflexivity|]. exists w. auto.
Qed.
Lemma session_ok h s : good s -> good (session tol supercell cell unit_atoms dims relative dt sqrt_mass memory never h s).
Proof. revert s. induction h as [|r h IH]; intros s G; [exact G|]. apply IH, ask_ok, G. Qed.
End Proofs.

(** Undisturbed: with matching cells, and two or more frames if the velocities have to be calculated, every answer in every session is right,
    whatever the allocated memory contains. *)
Theorem C118_undisturbed : forall tol supercell cell unit_atoms dims relative dt sqrt_mass memory given m h r,
  supercell_matrix tol supercell cell = Some m ->
  (given = None -> forall i j, (i < atoms_in unit_atoms m)%nat -> (j < dims)%nat -> (2 <= length (relative i j))%nat) ->
  exists a s', ask tol supercell cell unit_atoms dims relative dt sqrt_mass memory never r
                 (session tol supercell cell unit_atoms dims relative dt sqrt_mass memory never h (fresh given)) = (Some a, s') /\
  right unit_atoms dims relative dt sqrt_mass given m r a.
Proof.
  intros tol supercell cell unit_atoms dims relative dt sqrt_mass memory given m h r Hm Hlen.
  pose proof (accepted_rounded tol supercell cell m Hm) as ->.
  set (s := session tol supercell cell unit_atoms dims relative dt sqrt_mass memory never h (fresh given)).
  assert (G : good supercell cell unit_atoms dims relative dt sqrt_mass given s).
  { apply session_ok; [exact Hm|exact Hlen|]. unfold good, fresh. cbn. split; [auto|]. split; [|auto]. destruct given as [v|]; [right; exists v; split; [reflexivity|]; intros; reflexivity|left; auto]. }
  destruct (ask_ok tol supercell cell unit_atoms dims relative dt sqrt_mass memory given Hm Hlen r s G) as (_ & a & E & Ra).
  exists a, (snd (ask tol supercell cell unit_atoms dims relative dt sqrt_mass memory never r s)). split; [|exact Ra]. rewrite <- E. apply surjective_pairing.
Qed.
Print Assumptions C118_undisturbed.

(** A cell that does not match is refused once.  Every later request for the factors returns them, no matter how far off they are. *)
Theorem C14_refused_once_refuted : forall tol supercell cell unit_atoms dims relative dt sqrt_mass memory given,
  supercell_matrix tol supercell cell = None ->
  let ask := ask tol supercell cell unit_atoms dims relative dt sqrt_mass memory never in
  exists s1 m, ask SupercellMatrix (fresh given) = (None, s1) /\ ask SupercellMatrix s1 = (Some (Factors m), s1) /\ nearest supercell cell m.
Proof.
  intros tol supercell cell unit_atoms dims relative dt sqrt_mass memory given H. cbv zeta. eexists. exists (rounded supercell cell). split; [|split; [|apply rounded_nearest]].
  - unfold ask, get_supercell_matrix, bind, gets, assign, never. cbn. rewrite H. reflexivity.
  - reflexivity.
Qed.
Print Assumptions C14_refused_once_refuted.

(** Trajectories with velocities, cells that do not match: the first request for the mass-weighted velocities fails, the second one returns
    whatever the allocated memory contained. *)
Theorem C118_uninitialised_refuted : forall tol supercell cell unit_atoms dims relative dt sqrt_mass memory v,
  supercell_matrix tol supercell cell = None ->
  let ask := ask tol supercell cell unit_atoms dims relative dt sqrt_mass memory never in
  exists s1, ask MassWeighted (fresh (Some v)) = (None, s1) /\ ask MassWeighted s1 = (Some (Columns memory), s1).
Proof.
  intros tol supercell cell unit_atoms dims relative dt sqrt_mass memory v H. cbv zeta. eexists. split.
  - unfold ask, get_velocity_mass_average, get_velocity, get_supercell_matrix, bind, gets, assign, never, ret. cbn. rewrite H. reflexivity.
  - reflexivity.
Qed.
Print Assumptions C118_uninitialised_refuted.

(** A trajectory of one frame without velocities: the first request for the velocities fails, the second one returns zeros. *)
Theorem C118_single_frame_refuted : forall tol supercell cell unit_atoms dims relative dt sqrt_mass memory m,
  supercell_matrix tol supercell cell = Some m -> (0 < atoms_in unit_atoms m)%nat -> (0 < dims)%nat -> (forall i j, length (relative i j) = 1%nat) ->
  let ask := ask tol supercell cell unit_atoms dims relative dt sqrt_mass memory never in
  exists s1 v, ask Velocity (fresh None) = (None, s1) /\ ask Velocity s1 = (Some (Columns v), s1) /\ forall i j, v i j = [0].
Proof.
  intros tol supercell cell unit_atoms dims relative dt sqrt_mass memory m Hm Ha Hd H1. cbv zeta. pose proof (accepted_rounded tol supercell cell m Hm) as ->.
  eexists. exists (fun i j => repeat 0 (length (relative i j))). split; [|split].
  - assert (E1 : get_supercell_matrix tol supercell cell never (fresh None) = (Some (rounded supercell cell), tick (put_matrix (rounded supercell cell) (fresh None)))).
    { unfold get_supercell_matrix, bind, gets, assign, never. cbn [fresh matrix]. rewrite Hm. reflexivity. }
    unfold ask, bind at 1, get_velocity, bind at 1, gets at 1. change (velocity (fresh None)) with (@None columns). unfold bind at 1, get_relative, bind at 1. rewrite E1. unfold ret at 1.
    unfold bind at 1, assign at 1, never at 1. unfold bind at 1. rewrite number_ok by reflexivity.
    destruct (atoms_in unit_atoms (rounded supercell cell)) as [|n]; [lia|]. destruct dims as [|d]; [lia|]. cbn [seq list_prod map app for_each]. unfold bind, gradient. cbn [fst snd]. rewrite H1. reflexivity.
  - reflexivity.
  - intros i j. rewrite H1. reflexivity.
Qed.
Print Assumptions C118_single_frame_refuted.

(** Interrupted anywhere, any number of times: with matching cells the factors returned are always the right ones. *)
Section Keep.
Context (tol : R) (supercell cell : mat) (unit_atoms dims : nat) (relative : nat -> nat -> list R) (dt : R) (sqrt_mass : nat -> R)
  (memory : nat -> nat -> list R) (interrupts : nat -> bool).
Notation rnd := (rounded supercell cell).
Definition inv (s : st) : Prop := matrix s = None \/ matrix s = Some rnd.
Definition keeps {A} (m : M A) : Prop := forall s, inv s -> inv (snd (m s)).
Lemma keeps_bind {A B} (m : M A) (f : A -> M B) : keeps m -> (forall a, keeps (f a)) -> keeps (bind m f).
Proof. intros Hm Hf s Hs. specialize (Hm s Hs). unfold bind. destruct (m s) as [[a|] s1]; cbn [snd] in *; [apply Hf; exact Hm|exact Hm]. Qed.
Lemma keeps_ret {A} (a : A) : keeps (ret a). Proof. intros s Hs. exact Hs. Qed.
Lemma keeps_raise {A} : keeps (@raise A). Proof. intros s Hs. exact Hs. Qed.
Lemma keeps_gets {A} (f : st -> A) : keeps (gets f). Proof. intros s Hs. exact Hs. Qed.
Lemma keeps_assign f : (forall s, inv s -> inv (f s)) -> keeps (assign interrupts f).
Proof. intros H s Hs. unfold assign. destruct (interrupts (clock s)); cbn [snd]; [exact Hs|]. exact (H s Hs). Qed.
Lemma keeps_each {A} (f : A -> M unit) l : (forall a, keeps (f a)) -> keeps (for_each f l).
Proof. intros H. induction l as [|a l IH]; [apply keeps_ret|]. cbn [for_each]. apply keeps_bind; auto. Qed.
Lemma keeps_cached {A} (c : option A) : keeps (cached c). Proof. destruct c; [apply keeps_ret|apply keeps_raise]. Qed.
Lemma keeps_matrix : keeps (get_supercell_matrix tol supercell cell interrupts).
Proof.
  unfold get_supercell_matrix. apply keeps_bind; [apply keeps_gets|]. intros [m|]; [apply keeps_ret|]. apply keeps_bind; [apply keeps_assign; intros s _; right; reflexivity|]. intros _.
  apply keeps_bind; [destruct (supercell_matrix tol supercell cell); [apply keeps_ret|apply keeps_raise]|]. intros _. apply keeps_bind; [apply keeps_gets|apply keeps_cached].
Qed.
Lemma keeps_number : keeps (get_number_of_atoms tol supercell cell unit_atoms interrupts).
Proof. apply keeps_bind; [apply keeps_matrix|]. intros m. apply keeps_ret. Qed.
Lemma keeps_velocity : keeps (get_velocity tol supercell cell unit_atoms dims relative dt interrupts).
Proof.
  unfold get_velocity. apply keeps_bind; [apply keeps_gets|]. intros [v|]; [apply keeps_ret|]. apply keeps_bind; [apply keeps_bind; [apply keeps_matrix|intros; apply keeps_ret]|]. intros r.
  apply keeps_bind; [apply keeps_assign; intros s Hs; exact Hs|]. intros _. apply keeps_bind; [apply keeps_number|]. intros n. apply keeps_bind; [|intros _; apply keeps_bind; [apply keeps_gets|apply keeps_cached]].
  apply keeps_each. intros ij. apply keeps_bind; [unfold gradient; destruct (_ <? _)%nat; [apply keeps_raise|apply keeps_ret]|]. intros g. apply keeps_assign. intros s Hs. destruct (velocity s); exact Hs.
Qed.
Lemma keeps_weighted : keeps (get_velocity_mass_average tol supercell cell unit_atoms dims relative dt sqrt_mass memory interrupts).
Proof.
  unfold get_velocity_mass_average. apply keeps_bind; [apply keeps_gets|]. intros [v|]; [apply keeps_ret|]. apply keeps_bind; [apply keeps_velocity|]. intros r.
  apply keeps_bind; [apply keeps_assign; intros s Hs; exact Hs|]. intros _. apply keeps_bind; [apply keeps_matrix|]. intros _. apply keeps_bind; [apply keeps_number|]. intros n.
  apply keeps_bind; [|intros _; apply keeps_bind; [apply keeps_gets|apply keeps_cached]].
  apply keeps_each. intros i. apply keeps_bind; [apply keeps_velocity|]. intros g. apply keeps_assign. intros s Hs. destruct (weighted s); exact Hs.
Qed.
Lemma keeps_ask r : keeps (ask tol supercell cell unit_atoms dims relative dt sqrt_mass memory interrupts r).
Proof. destruct r; cbn [ask]; apply keeps_bind; try (intros; apply keeps_ret); [apply keeps_matrix|apply keeps_velocity|apply keeps_weighted]. Qed.
Lemma keeps_session h s : inv s -> inv (session tol supercell cell unit_atoms dims relative dt sqrt_mass memory interrupts h s).
Proof. revert s. induction h as [|r h IH]; intros s Hs; [exact Hs|]. apply IH, keeps_ask, Hs. Qed.
End Keep.
Theorem C118_factors_partial : forall tol supercell cell unit_atoms dims relative dt sqrt_mass memory interrupts given m h a s',
  supercell_matrix tol supercell cell = Some m ->
  ask tol supercell cell unit_atoms dims relative dt sqrt_mass memory interrupts SupercellMatrix
    (session tol supercell cell unit_atoms dims relative dt sqrt_mass memory interrupts h (fresh given)) = (Some a, s') -> a = Factors m.
Proof.
  intros tol supercell cell unit_atoms dims relative dt sqrt_mass memory interrupts given m h a s' Hm E. pose proof (accepted_rounded tol supercell cell m Hm) as ->.
  pose proof (keeps_session tol supercell cell unit_atoms dims relative dt sqrt_mass memory interrupts h (fresh given) (or_introl eq_refl)) as I.
  revert E. generalize dependent (session tol supercell cell unit_atoms dims relative dt sqrt_mass memory interrupts h (fresh given)). intros s I.
  unfold ask, get_supercell_matrix, bind, gets, assign. destruct I as [I|I]; rewrite I.
  - destruct (interrupts (clock s)); cbn; [discriminate|]. rewrite Hm. cbn. intros E. injection E as <- <-. reflexivity.
  - cbn. intros E. injection E as <- <-. reflexivity.
Qed.
Print Assumptions C118_factors_partial.

(** Calculating the velocities, interrupted at the m-th of the (atom, coordinate) columns: the next request returns them with zeros in the
    columns that were not reached. *)
Theorem C118_interrupt_refuted : forall tol supercell cell unit_atoms dims relative dt sqrt_mass memory (interrupts : nat -> bool) m k,
  supercell_matrix tol supercell cell = Some m -> (forall i j, (2 <= length (relative i j))%nat) ->
  let columns_of := list_prod (seq 0 (atoms_in unit_atoms m)) (seq 0 dims) in
  (k < length columns_of)%nat -> (forall t, (t < 2 + k)%nat -> interrupts t = false) -> interrupts (2 + k)%nat = true ->
  let ask := ask tol supercell cell unit_atoms dims relative dt sqrt_mass memory interrupts in
  exists s1 v, ask Velocity (fresh None) = (None, s1) /\ ask Velocity s1 = (Some (Columns v), s1) /\
    forall i j, ~ In (i, j) (firstn k columns_of) -> v i j = repeat 0 (length (relative i j)).
Proof.
  intros tol supercell cell unit_atoms dims relative dt sqrt_mass memory interrupts m k Hm Hlen cols Hk Hok Hbad. cbv zeta. pose proof (accepted_rounded tol supercell cell m Hm) as ->.
  assert (L : forall l k s v, (k < length l)%nat -> velocity s = Some v -> (forall t, (t < k)%nat -> interrupts (clock s + t)%nat = false) -> interrupts (clock s + k)%nat = true ->
    exists s' v', for_each (fun ij => bind (gradient dt (relative (fst ij) (snd ij))) (fun g =>
          assign interrupts (fun s => match velocity s with Some v => put_velocity (write (fst ij) (snd ij) g v) s | None => s end))) l s = (None, s') /\
      velocity s' = Some v' /\ forall i j, ~ In (i, j) (firstn k l) -> v' i j = v i j).
  { induction l as [|[i0 j0] l IH]; intros k0 s v H0 Hv Hok0 Hbad0; [cbn in H0; lia|]. cbn [for_each]. unfold bind at 1. unfold bind at 1, gradient at 1. cbn [fst snd].
    replace (length (relative i0 j0) <? 2)%nat with false by (symmetry; apply Nat.ltb_ge; apply Hlen). unfold ret at 1. unfold assign at 1. destruct k0 as [|k0].
    - rewrite Nat.add_0_r in Hbad0. rewrite Hbad0. exists (tick s), v. split; [reflexivity|]. split; [exact Hv|]. reflexivity.
    - pose proof (Hok0 0%nat ltac:(lia)) as Z. rewrite Nat.add_0_r in Z. rewrite Z, Hv.
      destruct (IH k0 (tick (put_velocity (write i0 j0 (np_gradient (relative i0 j0) dt) v) s)) (write i0 j0 (np_gradient (relative i0 j0) dt) v)) as (s' & v' & E & V & F).
      + cbn in H0. lia.
      + reflexivity.
      + intros t Ht. cbn. rewrite <- (Hok0 (S t) ltac:(lia)). f_equal. lia.
      + cbn. rewrite <- Hbad0. f_equal. lia.
      + exists s', v'. split; [exact E|]. split; [exact V|]. intros i j Hn. cbn [firstn] in Hn. rewrite F by (intros I; apply Hn; right; exact I). rewrite write_at.
        destruct (Nat.eqb_spec i i0); destruct (Nat.eqb_spec j j0); subst; cbn; try reflexivity. exfalso. apply Hn. left. reflexivity. }
  pose proof (Hok 0%nat ltac:(lia)) as Z0. pose proof (Hok 1%nat ltac:(lia)) as Z1.
  assert (E1 : get_supercell_matrix tol supercell cell interrupts (fresh None) = (Some (rounded supercell cell), tick (put_matrix (rounded supercell cell) (fresh None)))).
  { unfold get_supercell_matrix, bind, gets, assign. cbn [fresh matrix clock]. rewrite Z0, Hm. reflexivity. }
  set (s0 := tick (put_velocity (fun i j => repeat 0 (length (relative i j))) (tick (put_matrix (rounded supercell cell) (fresh None))))).
  destruct (L cols k s0 (fun i j => repeat 0 (length (relative i j))) Hk eq_refl) as (s1 & v & E & V & F).
  - intros t Ht. cbn. apply Hok. lia.
  - exact Hbad.
  - exists s1, v. split; [|split; [|exact F]].
    + unfold ask, bind at 1, get_velocity, bind at 1, gets at 1. change (velocity (fresh None)) with (@None columns). unfold bind at 1, get_relative, bind at 1. rewrite E1. unfold ret at 1.
      unfold bind at 1, assign at 1. change (clock (tick (put_matrix (rounded supercell cell) (fresh None)))) with 1%nat. rewrite Z1. unfold bind at 1.
      change (get_number_of_atoms tol supercell cell unit_atoms interrupts (tick (put_velocity (fun i j => repeat 0 (length (relative i j))) (tick (put_matrix (rounded supercell cell) (fresh None))))))
        with (Some (atoms_in unit_atoms (rounded supercell cell)), s0). unfold bind at 1. fold cols. rewrite E. reflexivity.
    + unfold ask, bind at 1, get_velocity, bind at 1, gets at 1. rewrite V. reflexivity.
Qed.
Print Assumptions C118_interrupt_refuted.

Lemma unit_cell_matches : supercell_matrix (1/100) (mdiag 2 1 1) mid = Some (2%Z, 1%Z, 1%Z).
Proof.
  unfold supercell_matrix. simpl r0; simpl r1; simpl r2. rewrite !vnorm_axis0, !vnorm_axis1, !vnorm_axis2 by lra.
  replace (2 / 1) with (IZR 2) by lra. replace (1 / 1) with (IZR 1) by lra. rewrite !around_IZR. cbv zeta.
  destruct (Rlt_dec _ _) as [C|C]; [|reflexivity]. exfalso. revert C.
  replace (IZR 2 - IZR 2 + (IZR 1 - IZR 1) + (IZR 1 - IZR 1)) with 0 by ring. unfold Rdiv. rewrite Rmult_0_l, Rabs_R0. lra.
Qed.
Lemma short_cell_refused : supercell_matrix (1/100) (mdiag (13/10) 1 1) mid = None.
Proof.
  unfold supercell_matrix. simpl r0; simpl r1; simpl r2. rewrite !vnorm_axis0, !vnorm_axis1, !vnorm_axis2 by lra.
  replace (around (13/10/1)) with 1%Z by (symmetry; apply around_nearest; lra).
  replace (around (1/1)) with 1%Z by (symmetry; apply around_nearest; lra). cbv zeta.
  destruct (Rlt_dec _ _) as [L|L]; [reflexivity|exfalso]. apply Rnot_lt_le in L.
  assert (B : 0 < vnorm (V3 (13/10/1) (1/1) (1/1)) <= 3).
  { unfold vnorm. unfold vnorm2, vdot; simpl. split; [apply sqrt_lt_R0; lra|]. apply Rle_trans with (sqrt (3 * 3)); [apply sqrt_le_1_alt; lra|rewrite sqrt_square; lra]. }
  revert L B. generalize (vnorm (V3 (13/10/1) (1/1) (1/1))). intros w L B.
  unfold Rdiv in L at 1. rewrite Rabs_mult, (Rabs_right (/ w)) in L by (left; apply Rinv_0_lt_compat; lra). rewrite Rabs_left in L by lra.
  apply (Rmult_le_compat_r w) in L; [|lra]. rewrite Rmult_assoc, Rinv_l in L by lra. lra.
Qed.
(** a cell doubled along x matches; one stretched by 1.3 is refused the first time and used as 1 x 1 x 1 the second time *)
Example C118_nonvacuous : supercell_matrix (1/100) (mdiag 2 1 1) mid = Some (2, 1, 1)%Z /\ atoms_in 1 (2, 1, 1)%Z = 2%nat /\
  supercell_matrix (1/100) (mdiag (13/10) 1 1) mid = None.
Proof. split; [exact unit_cell_matches|]. split; [reflexivity|exact short_cell_refused]. Qed.
Example C14_refused_once_nonvacuous : exists s1,
  ask (1/100) (mdiag (13/10) 1 1) mid 1 3 (fun _ _ => [0; 1]) 1 (fun _ => 1) (fun _ _ => []) never SupercellMatrix (fresh None) = (None, s1) /\
  ask (1/100) (mdiag (13/10) 1 1) mid 1 3 (fun _ _ => [0; 1]) 1 (fun _ => 1) (fun _ _ => []) never SupercellMatrix s1 = (Some (Factors (1, 1, 1)%Z), s1).
Proof.
  destruct (C14_refused_once_refuted (1/100) (mdiag (13/10) 1 1) mid 1 3 (fun _ _ => [0; 1]) 1 (fun _ => 1) (fun _ _ => []) None short_cell_refused) as (s1 & [[m0 m1] m2] & A & B & N0 & N1 & N2).
  exists s1. split; [exact A|]. cbn [fst snd] in N0, N1, N2. revert N0 N1 N2. simpl r0; simpl r1; simpl r2. rewrite !vnorm_axis0, !vnorm_axis1, !vnorm_axis2 by lra.
  replace (around (13/10/1)) with 1%Z by (symmetry; apply around_nearest; lra).
  replace (around (1/1)) with 1%Z by (symmetry; apply around_nearest; lra). intros -> -> ->. exact B.
Qed.
