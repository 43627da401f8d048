(** C arrays with bounds and initialisation checks, and counted loops.  [None] is undefined
    behaviour (index outside the allocated block, or reading memory never written). *)
From Coq Require Export List Arith Lia ZArith.
Export ListNotations.
Open Scope nat_scope.

Record arr (A : Type) := MkArr { asize : nat; acell : nat -> option A }.
Arguments MkArr {A}. Arguments asize {A}. Arguments acell {A}.
(** malloc(n * sizeof(A)): nothing initialised *)
Definition malloc {A} (n : nat) : arr A := MkArr n (fun _ => None).
(** the data block of a numpy array with the given elements *)
Definition of_list {A} (l : list A) : arr A := MkArr (length l) (nth_error l).
Definition rd {A} (a : arr A) (i : nat) : option A := if i <? asize a then acell a i else None.
Definition wr {A} (a : arr A) (i : nat) (x : A) : option (arr A) :=
  if i <? asize a then Some (MkArr (asize a) (fun k => if k =? i then Some x else acell a k)) else None.

Definition bind {A B} (o : option A) (f : A -> option B) : option B := match o with Some a => f a | None => None end.
Declare Scope c_scope.
Notation "x <- e ; f" := (bind e (fun x => f)) (at level 61, e at next level, right associativity) : c_scope.

(** for (i = a; i < a + n; i++) s = body(i, s) *)
Fixpoint for_ {S} (a n : nat) (body : nat -> S -> option S) (s : S) : option S :=
  match n with O => Some s | Datatypes.S m => bind (body a s) (fun s' => for_ (Datatypes.S a) m body s') end.

Lemma bind_some {A B} (o : option A) (f : A -> option B) b : bind o f = Some b -> exists a, o = Some a /\ f a = Some b.
Proof. destruct o as [a|]; simpl; [intros H; exists a; split; [reflexivity|exact H]|discriminate]. Qed.

(** loop rule: an invariant that every iteration establishes without undefined behaviour *)
Lemma for_rule {S} (I : nat -> S -> Prop) body : forall n a s,
  I a s -> (forall i s, a <= i < a + n -> I i s -> exists s', body i s = Some s' /\ I (Datatypes.S i) s') ->
  exists s', for_ a n body s = Some s' /\ I (a + n) s'.
Proof.
  induction n as [|n IH]; intros a s H0 Hstep; simpl.
  - exists s. rewrite Nat.add_0_r. split; [reflexivity|assumption].
  - destruct (Hstep a s) as [s1 [E1 I1]]; [lia|assumption|]. rewrite E1. simpl.
    destruct (IH (Datatypes.S a) s1 I1) as [s2 [E2 I2]].
    + intros i t Hi. apply Hstep. lia.
    + exists s2. split; [exact E2|]. replace (a + Datatypes.S n) with (Datatypes.S a + n) by lia. exact I2.
Qed.
(** partial correctness rule *)
Lemma for_inv {S} (I : nat -> S -> Prop) body : forall n a s s',
  I a s -> (forall i s s', a <= i < a + n -> I i s -> body i s = Some s' -> I (Datatypes.S i) s') ->
  for_ a n body s = Some s' -> I (a + n) s'.
Proof.
  induction n as [|n IH]; intros a s s' H0 Hstep; simpl.
  - intros [= <-]. rewrite Nat.add_0_r. assumption.
  - intros H. apply bind_some in H as [s1 [E1 E2]].
    replace (a + Datatypes.S n) with (Datatypes.S a + n) by lia. eapply IH; [|intros i t t' Hi; apply Hstep; lia|exact E2].
    eapply Hstep; [|eassumption|eassumption]. lia.
Qed.
Lemma for_none {S} body : forall n a (s : S) , (exists i, a <= i < a + n /\ forall s, body i s = None) -> for_ a n body s = None.
Proof.
  induction n as [|n IH]; intros a s [i [Hi Hb]]; [lia|]. simpl.
  destruct (Nat.eq_dec i a) as [->|N]; [rewrite Hb; reflexivity|].
  destruct (body a s) as [s1|]; [|reflexivity]. simpl. apply IH. exists i. split; [lia|assumption].
Qed.

Lemma rd_wr_same {A} (a b : arr A) i x : wr a i x = Some b -> rd b i = Some x.
Proof.
  unfold wr, rd. destruct (i <? asize a) eqn:E; [|discriminate]. intros [= <-]. simpl. rewrite E, Nat.eqb_refl. reflexivity.
Qed.
Lemma rd_wr_other {A} (a b : arr A) i k x : wr a i x = Some b -> k <> i -> rd b k = rd a k.
Proof.
  unfold wr, rd. destruct (i <? asize a) eqn:E; [|discriminate]. intros [= <-] N. simpl.
  replace (k =? i) with false by (symmetry; apply Nat.eqb_neq; assumption). reflexivity.
Qed.
Lemma wr_size {A} (a b : arr A) i x : wr a i x = Some b -> asize b = asize a.
Proof. unfold wr. destruct (i <? asize a); [|discriminate]. intros [= <-]. reflexivity. Qed.
Lemma wr_ok {A} (a : arr A) i x : i < asize a -> exists b, wr a i x = Some b.
Proof. intros H. unfold wr. apply Nat.ltb_lt in H. rewrite H. eexists; reflexivity. Qed.
Lemma rd_size {A} (a : arr A) i x : rd a i = Some x -> i < asize a.
Proof. unfold rd. destruct (i <? asize a) eqn:E; [intros _; apply Nat.ltb_lt; assumption|discriminate]. Qed.
Lemma rd_of_list {A} (l : list A) i : rd (of_list l) i = nth_error l i.
Proof.
  unfold rd, of_list; simpl. destruct (i <? length l) eqn:E; [reflexivity|]. apply Nat.ltb_ge in E. symmetry. apply nth_error_None. assumption.
Qed.
Lemma rd_oob {A} (a : arr A) i : asize a <= i -> rd a i = None.
Proof. intros H. unfold rd. replace (i <? asize a) with false by (symmetry; apply Nat.ltb_ge; assumption). reflexivity. Qed.

(** ------------------------------------------------------------------------------------
    "#pragma omp parallel for private(w)": c/correlation.c:143-147, c/mem.c:155-169.
    Iteration i first computes its private variable, then writes its own output cell.  A schedule
    is any list of iteration numbers; an occurrence executes the next step of that iteration. *)
Section Parallel.
Context {W O : Type}.
Variable prepare : nat -> W.        (* AngularFrequency = Frequency[i]*2.0*M_PI *)
Variable compute : W -> O.          (* PowerSpectrum[i] = ... *)
Record par := MkPar { pc : nat -> nat; priv : nat -> option W; out : nat -> option O }.
Definition upd {X} (f : nat -> X) (i : nat) (x : X) : nat -> X := fun k => if k =? i then x else f k.
Definition par_step (i : nat) (s : par) : par :=
  match pc s i with
  | 0 => MkPar (upd (pc s) i 1) (upd (priv s) i (Some (prepare i))) (out s)
  | 1 => MkPar (upd (pc s) i 2) (priv s) (upd (out s) i (option_map compute (priv s i)))
  | _ => s
  end.
Definition par_init : par := MkPar (fun _ => 0) (fun _ => None) (fun _ => None).
Definition par_run (schedule : list nat) : par := fold_left (fun s i => par_step i s) schedule par_init.

Definition par_inv (sch : list nat) (s : par) : Prop := forall i,
  pc s i = Nat.min 2 (count_occ Nat.eq_dec sch i) /\
  (1 <= pc s i -> priv s i = Some (prepare i)) /\
  out s i = (if pc s i =? 2 then Some (compute (prepare i)) else None).
Lemma par_inv_run sch : par_inv sch (par_run sch).
Proof.
  unfold par_run. rewrite <- fold_left_rev_right. rewrite <- (rev_involutive sch) at 1.
  induction (rev sch) as [|i l IH]; simpl.
  - intros k. simpl. split; [reflexivity|]. split; [lia|reflexivity].
  - set (s := fold_right (fun y x => par_step y x) par_init l) in *. clearbody s.
    intros k. destruct (IH k) as [A [B C]]. rewrite count_occ_app. cbn [count_occ].
    destruct (IH i) as [A' [B' C']].
    unfold par_step. destruct (Nat.eq_dec i k) as [->|N].
    + destruct (pc s k) as [|[|m]] eqn:E; cbn [pc priv out]; unfold upd; rewrite ?Nat.eqb_refl.
      * split; [lia|]. split; [reflexivity|]. rewrite C. reflexivity.
      * split; [lia|]. split; [intros _; apply B; lia|]. rewrite B by lia. reflexivity.
      * rewrite E. split; [lia|]. split; [intros _; apply B; lia|]. exact C.
    + rewrite Nat.add_0_r.
      destruct (pc s i) as [|[|m]]; cbn [pc priv out]; unfold upd;
        replace (k =? i) with false by (symmetry; apply Nat.eqb_neq; congruence); (split; [assumption|split; assumption]).
Qed.
Lemma par_result sch n : (forall i, i < n -> 2 <= count_occ Nat.eq_dec sch i) ->
  forall i, i < n -> out (par_run sch) i = Some (compute (prepare i)).
Proof.
  intros H i Hi. destruct (par_inv_run sch i) as [A [_ C]]. rewrite C, A.
  specialize (H i Hi). replace (Nat.min 2 (count_occ Nat.eq_dec sch i)) with 2 by lia. reflexivity.
Qed.
(** nothing else is ever written *)
Lemma par_no_other sch i : ~ In i sch -> out (par_run sch) i = None.
Proof.
  intros H. destruct (par_inv_run sch i) as [A [_ C]]. rewrite C, A.
  apply (count_occ_not_In Nat.eq_dec) in H. rewrite H. reflexivity.
Qed.
End Parallel.
