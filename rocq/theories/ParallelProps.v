(** C115: the spectra computed in parallel do not depend on the number of threads nor on their timing. *)
From Coq Require Import Lia Permutation Reals.
From Verif Require Import ParallelModel.
From Verif Require CMem MemModel CorrelationModel.

(* ---------- specification ---------- *)
(** a way of dealing n iterations to threads: each iteration goes to exactly one thread (static, dynamic, guided, any number of threads) *)
Definition deals (n : nat) (dealt : list (list nat)) : Prop := Permutation (concat dealt) (seq 0 n).
Section Spec.
Context {D : Type}.
Definition finished (s : state D) : Prop := forall t, In t (threads s) -> snd t = [].
(** shared locations: an input cell, an output cell, the variable AngularFrequency *)
Inductive location := Input (i : nat) | Output (i : nat) | Variable_.
(** what a step touches; true: it writes *)
Definition touches (private : bool) (x : instr D) : list (location * bool) :=
  match x with
  | SetAng i _ => (Input i, false) :: (if private then [] else [(Variable_, true)])
  | Load i => [(Output i, false)]
  | Store i _ => (Output i, true) :: (if private then [] else [(Variable_, false)])
  end.
(** two threads about to touch the same location, one of them writing *)
Definition race (private : bool) (s : state D) : Prop :=
  exists t u rt xt lt ru xu lu loc wt wu, t <> u /\ nth_error (threads s) t = Some (rt, xt :: lt) /\ nth_error (threads s) u = Some (ru, xu :: lu) /\
  In (loc, wt) (touches private xt) /\ In (loc, wu) (touches private xu) /\ (wt = true \/ wu = true).
Definition steps_left (s : state D) : nat := list_sum (map (fun t => length (snd t)) (threads s)).
End Spec.

(* ---------- proof ---------- *)
Section Proof.
Context {D : Type} (freq : nat -> D) (n : nat).
Notation exec := (exec true freq n).
Notation step := (step true freq n).
Notation run := (run true freq n).
(** a thread running alone *)
Fixpoint alone (l : list (instr D)) (r : regs D) (m : mem D) : option (regs D * mem D) :=
  match l with [] => Some (r, m) | x :: l => match exec x r m with None => None | Some (r', m') => alone l r' m' end end.
Lemma alone_app a b r m : alone (a ++ b) r m = match alone a r m with None => None | Some (r', m') => alone b r' m' end.
Proof. revert r m. induction a as [|x a IH]; intros r m; [reflexivity|]. cbn. destruct (exec x r m) as [[r' m']|]; [apply IH|reflexivity]. Qed.
Lemma alone_prefix a b r m q : alone (a ++ b) r m = Some q -> exists r' m', alone a r m = Some (r', m').
Proof. rewrite alone_app. destruct (alone a r m) as [[r' m']|]; [eauto|discriminate]. Qed.

(** a step of a thread reads and writes output cells of its own iterations only *)
Lemma exec_outside x r m r' m' : exec x r m = Some (r', m') -> forall k, k <> index x -> ps m' k = ps m k.
Proof.
  unfold ParallelModel.exec. destruct (index x <? n); [|discriminate]. destruct x as [i f|i|i f]; cbn [index]; intros E k Hk.
  - injection E as _ <-. reflexivity.
  - destruct (ps m i); [|discriminate]. injection E as _ <-. reflexivity.
  - destruct (f _ _) as [v|]; [|discriminate]. injection E as _ <-. cbn. unfold put. destruct (Nat.eqb_spec k i); [contradiction|reflexivity].
Qed.
Lemma exec_local x r m1 m2 r' m1' : ps m1 (index x) = ps m2 (index x) -> exec x r m1 = Some (r', m1') ->
  exists m2', exec x r m2 = Some (r', m2') /\ ps m1' (index x) = ps m2' (index x).
Proof.
  unfold ParallelModel.exec. destruct (index x <? n); [|discriminate]. destruct x as [i f|i|i f]; cbn [index]; intros H E.
  - injection E as <- <-. eauto.
  - rewrite <- H. destruct (ps m1 i) as [v|] eqn:P; [|discriminate]. injection E as <- <-. exists m2. split; [reflexivity|]. rewrite P. exact H.
  - destruct (f _ _) as [v|]; [|discriminate]. injection E as <- <-. eexists. split; [reflexivity|]. cbn. unfold put. rewrite Nat.eqb_refl. reflexivity.
Qed.

Lemma replace_length {A} (l : list A) k x : length (replace l k x) = length l.
Proof. revert k. induction l as [|a l IH]; intros [|k]; cbn; auto. Qed.
Lemma replace_same {A} (l : list A) k x : k < length l -> nth_error (replace l k x) k = Some x.
Proof. revert k. induction l as [|a l IH]; intros [|k] H; cbn in *; try lia; auto. apply IH. lia. Qed.
Lemma replace_other {A} (l : list A) k j x : j <> k -> nth_error (replace l k x) j = nth_error l j.
Proof. revert k j. induction l as [|a l IH]; intros [|k] [|j] H; cbn; auto; try lia. Qed.
Lemma nth_error_lt {A} (l : list A) k x : nth_error l k = Some x -> k < length l.
Proof. intros H. apply nth_error_Some. congruence. Qed.

(** dealt iterations: pairwise different, all below n *)
Lemma deals_all (dealt : list (list nat)) : deals n dealt -> (forall t (c : list nat) i, nth_error dealt t = Some c -> In i c -> i < n) /\ (forall i, i < n -> exists t (c : list nat), nth_error dealt t = Some c /\ In i c).
Proof.
  intros P. split.
  - intros t c i E Hi. assert (In i (concat dealt)) by (apply in_concat; exists c; split; [eapply nth_error_In, E|exact Hi]). apply (Permutation_in _ P) in H. apply in_seq in H. lia.
  - intros i Hi. assert (In i (concat dealt)) by (apply (Permutation_in _ (Permutation_sym P)), in_seq; lia). apply in_concat in H as (c & Hc & H). apply In_nth_error in Hc as (t & Ht). eauto.
Qed.
Lemma nodup_apart : forall dealt : list (list nat), NoDup (concat dealt) -> forall t u (c d : list nat) i, nth_error dealt t = Some c -> nth_error dealt u = Some d -> In i c -> In i d -> t = u.
Proof.
  induction dealt as [|x dealt IH]; intros N t u c d i; [destruct t; discriminate|]. cbn [concat] in N.
  assert (A : forall y, In y x -> ~ In y (concat dealt)). { intros y Hy Hc. clear - N Hy Hc. induction x as [|z x IHx]; [contradiction|]. cbn in N. inversion N as [|? ? N1 N2]; subst. destruct Hy as [->|Hy]; [apply N1, in_or_app; auto|apply IHx; assumption]. }
  assert (N' : NoDup (concat dealt)) by (clear - N; induction x as [|z x IHx]; [exact N|]; inversion N; auto).
  destruct t as [|t], u as [|u]; cbn; intros E1 E2 H1 H2; try reflexivity.
  - injection E1 as ->. exfalso. apply (A i H1). apply in_concat. exists d. split; [eapply nth_error_In, E2|exact H2].
  - injection E2 as ->. exfalso. apply (A i H2). apply in_concat. exists c. split; [eapply nth_error_In, E1|exact H1].
  - f_equal. eapply IH; eauto.
Qed.
Lemma deals_apart (dealt : list (list nat)) : deals n dealt -> forall t u (c d : list nat) i, nth_error dealt t = Some c -> nth_error dealt u = Some d -> In i c -> In i d -> t = u.
Proof. intros P. apply nodup_apart. apply (Permutation_NoDup (Permutation_sym P)), seq_NoDup. Qed.
Lemma deals_nodup (dealt : list (list nat)) : deals n dealt -> forall t c, nth_error dealt t = Some c -> NoDup c.
Proof.
  intros P. assert (N : NoDup (concat dealt)) by (apply (Permutation_NoDup (Permutation_sym P)), seq_NoDup). clear P. induction dealt as [|x dealt IH]; intros [|t] c E; try discriminate.
  - injection E as ->. cbn in N. clear - N. induction c as [|z c IH]; [constructor|]. cbn in N. inversion N as [|? ? N1 N2]; subst. constructor; [intros H; apply N1, in_or_app; auto|auto].
  - cbn in N. apply (IH) with (t := t); [|exact E]. clear - N. induction x as [|z x IHx]; [exact N|]. inversion N; auto.
Qed.

Context (body : nat -> list (instr D)) (value : nat -> D).
Context (Hindex : forall i x, In x (body i) -> index x = i).
Context (Hbody : forall i, i < n -> forall r m, exists r' m', alone (body i) r m = Some (r', m') /\ ps m' i = Some (value i) /\ forall k, k <> i -> ps m' k = ps m k).

Lemma body_index c x : In x (flat_map body c) -> In (index x) c.
Proof. intros H. apply in_flat_map in H as (i & Hi & Hx). rewrite (Hindex i x Hx). exact Hi. Qed.
Lemma alone_all c : NoDup c -> (forall i, In i c -> i < n) -> forall r m, exists r' m', alone (flat_map body c) r m = Some (r', m') /\ (forall i, In i c -> ps m' i = Some (value i)) /\ (forall k, ~ In k c -> ps m' k = ps m k).
Proof.
  induction 1 as [|i c Hi N IH]; intros L r m.
  - exists r, m. split; [reflexivity|]. split; [intros i []|reflexivity].
  - cbn [flat_map]. destruct (Hbody i (L i (or_introl eq_refl)) r m) as (r1 & m1 & E1 & V1 & O1). destruct (IH (fun j Hj => L j (or_intror Hj)) r1 m1) as (r2 & m2 & E2 & V2 & O2).
    exists r2, m2. rewrite alone_app, E1. split; [exact E2|]. split.
    + intros j [<-|Hj]; [rewrite O2 by exact Hi; exact V1|apply V2, Hj].
    + intros k Hk. rewrite O2 by (intros Q; apply Hk; right; exact Q). apply O1. intros ->. apply Hk. left. reflexivity.
Qed.

Definition init : mem D := MkMem None (fun _ => None).
(** what thread t has done so far it could have done alone *)
Definition Inv (dealt : list (list nat)) (s : state D) : Prop :=
  length (threads s) = length dealt /\
  forall t c, nth_error dealt t = Some c -> exists r rest done m, nth_error (threads s) t = Some (r, rest) /\ flat_map body c = done ++ rest /\
  alone done (MkRegs None None) init = Some (r, m) /\ forall i, In i c -> ps (shared s) i = ps m i.
Lemma inv_start dealt : Inv dealt (start body dealt).
Proof.
  split; [cbn; rewrite map_length; reflexivity|]. intros t c E. exists (MkRegs None None), (flat_map body c), [], init. split; [|split; [reflexivity|split; [reflexivity|reflexivity]]].
  cbn. exact (map_nth_error (fun c => (MkRegs None None, flat_map body c)) t dealt E).
Qed.
Lemma inv_step dealt t s s' : deals n dealt -> Inv dealt s -> step t s = Some s' -> Inv dealt s' /\ S (steps_left s') = steps_left s.
Proof.
  intros P (L & I) E. unfold ParallelModel.step in E. destruct (nth_error (threads s) t) as [[r [|x rest]]|] eqn:Et; try discriminate.
  destruct (exec x r (shared s)) as [[r' m']|] eqn:Ex; [|discriminate]. injection E as <-.
  assert (Lt := nth_error_lt _ _ _ Et). destruct (nth_error dealt t) as [c|] eqn:Ec; [|apply nth_error_None in Ec; lia].
  destruct (I t c Ec) as (r0 & rest0 & done & m & E1 & E2 & E3 & E4). rewrite Et in E1. injection E1 as <- <-.
  assert (Hx : In (index x) c) by (apply body_index; rewrite E2; apply in_or_app; right; left; reflexivity).
  destruct (exec_local x r (shared s) m r' m' (E4 _ Hx) Ex) as (m2 & Ex2 & Q). split; [split|].
  - cbn. rewrite replace_length. exact L.
  - intros u d Ed. destruct (Nat.eq_dec u t) as [->|Ne].
    + rewrite Ec in Ed. injection Ed as <-. exists r', rest, (done ++ [x]), m2. cbn [threads shared]. split; [apply replace_same, Lt|]. split; [rewrite <- app_assoc; exact E2|]. split.
      * rewrite alone_app, E3. cbn. rewrite Ex2. reflexivity.
      * intros i Hi. destruct (Nat.eq_dec i (index x)) as [->|Ni]; [exact Q|]. rewrite (exec_outside _ _ _ _ _ Ex i Ni), (exec_outside _ _ _ _ _ Ex2 i Ni). apply E4, Hi.
    + destruct (I u d Ed) as (ru & restu & doneu & mu & U1 & U2 & U3 & U4). exists ru, restu, doneu, mu. cbn [threads shared]. split; [rewrite replace_other by exact Ne; exact U1|]. split; [exact U2|]. split; [exact U3|].
      intros i Hi. rewrite (exec_outside _ _ _ _ _ Ex i); [apply U4, Hi|]. intros ->. apply Ne. exact (deals_apart dealt P u t d c _ Ed Ec Hi Hx).
  - clear - Et. unfold steps_left. cbn [threads]. revert t Et. generalize (threads s). intros l. induction l as [|a l IH]; intros [|t] Et; try discriminate.
    + injection Et as ->. unfold list_sum. cbn [replace map fold_right snd length]. reflexivity.
    + specialize (IH t Et). unfold list_sum in *. cbn [replace map fold_right] in *. lia.
Qed.
Lemma inv_run dealt schedule : deals n dealt -> forall s s', Inv dealt s -> run schedule s = Some s' -> Inv dealt s' /\ length schedule + steps_left s' = steps_left s.
Proof.
  intros P. induction schedule as [|t l IH]; intros s s' I E; [injection E as <-; cbn; auto|]. cbn in E. destruct (step t s) as [s1|] eqn:Es; [|discriminate].
  destruct (inv_step dealt t s s1 P I Es) as (I1 & C1). destruct (IH s1 s' I1 E) as (I2 & C2). split; [exact I2|]. cbn. lia.
Qed.
Lemma inv_progress dealt s t r x rest : deals n dealt -> Inv dealt s -> nth_error (threads s) t = Some (r, x :: rest) -> exists s', step t s = Some s'.
Proof.
  intros P (L & I) Et. assert (Lt := nth_error_lt _ _ _ Et). destruct (nth_error dealt t) as [c|] eqn:Ec; [|apply nth_error_None in Ec; lia].
  destruct (I t c Ec) as (r0 & rest0 & done & m & E1 & E2 & E3 & E4). rewrite Et in E1. injection E1 as <- <-.
  destruct (alone_all c (deals_nodup dealt P t c Ec) (fun i Hi => proj1 (deals_all dealt P) t c i Ec Hi) (MkRegs None None) init) as (ra & ma & Ea & _).
  rewrite E2, alone_app, E3 in Ea. cbn in Ea. destruct (exec x r m) as [[r1 m1]|] eqn:Ex; [|discriminate].
  assert (Hx : In (index x) c) by (apply body_index; rewrite E2; apply in_or_app; right; left; reflexivity).
  destruct (exec_local x r m (shared s) r1 m1 (eq_sym (E4 _ Hx)) Ex) as (m2 & Ex2 & _). unfold ParallelModel.step. rewrite Et, Ex2. eauto.
Qed.
Lemma inv_race dealt s : deals n dealt -> Inv dealt s -> ~ race true s.
Proof.
  intros P (L & I) (t & u & rt & xt & lt & ru & xu & lu & loc & wt & wu & Ne & Et & Eu & Ht & Hu & W).
  assert (Lt := nth_error_lt _ _ _ Et). assert (Lu := nth_error_lt _ _ _ Eu).
  destruct (nth_error dealt t) as [c|] eqn:Ec; [|apply nth_error_None in Ec; lia]. destruct (nth_error dealt u) as [d|] eqn:Ed; [|apply nth_error_None in Ed; lia].
  destruct (I t c Ec) as (r0 & rest0 & done & m & E1 & E2 & _). rewrite Et in E1. injection E1 as <- <-. destruct (I u d Ed) as (r1 & rest1 & done1 & m1 & F1 & F2 & _). rewrite Eu in F1. injection F1 as <- <-.
  assert (Hx : In (index xt) c) by (apply body_index; rewrite E2; apply in_or_app; right; left; reflexivity).
  assert (Hy : In (index xu) d) by (apply body_index; rewrite F2; apply in_or_app; right; left; reflexivity).
  apply Ne. apply (deals_apart dealt P t u c d (index xt) Ec Ed Hx).
  destruct xt as [i f|i|i f], xu as [j g|j|j g]; cbn in *; destruct Ht as [Ht|[]], Hu as [Hu|[]]; inversion Ht; inversion Hu; subst; try discriminate; try (destruct W; discriminate); congruence.
Qed.
Lemma inv_end dealt s : deals n dealt -> Inv dealt s -> finished s -> forall i, i < n -> ps (shared s) i = Some (value i).
Proof.
  intros P (L & I) F i Hi. destruct (proj2 (deals_all dealt P) i Hi) as (t & c & Ec & Hc). destruct (I t c Ec) as (r & rest & done & m & E1 & E2 & E3 & E4).
  assert (rest = []) by (apply (F (r, rest)), (nth_error_In _ _ E1)). subst rest. rewrite app_nil_r in E2. subst done. rewrite (E4 i Hc).
  destruct (alone_all c (deals_nodup dealt P t c Ec) (fun i Hi => proj1 (deals_all dealt P) t c i Ec Hi) (MkRegs None None) init) as (ra & ma & Ea & V & _). rewrite E3 in Ea. injection Ea as -> ->. apply V, Hc.
Qed.
Lemma everything dealt schedule s : deals n dealt -> run schedule (start body dealt) = Some s ->
  ~ race true s /\ (forall t r x rest, nth_error (threads s) t = Some (r, x :: rest) -> exists s', step t s = Some s') /\
  (length schedule + steps_left s = steps_left (start body dealt)) /\ (finished s -> forall i, i < n -> ps (shared s) i = Some (value i)).
Proof.
  intros P E. destruct (inv_run dealt schedule P _ _ (inv_start dealt) E) as (I & C). split; [exact (inv_race dealt s P I)|]. split; [intros t r x rest Et; exact (inv_progress dealt s t r x rest P I Et)|].
  split; [exact C|]. exact (inv_end dealt s P I).
Qed.
End Proof.

(* ---------- theorems ---------- *)
(** Maximum entropy: n frequencies dealt in any way to any number of threads whose steps are interleaved in any way.  At every moment no two threads compete for
    a location and every thread with work left can go on (no undefined behaviour, no deadlock); the number of steps left goes down by one with each step;
    when all threads are done, cell i of the output holds exactly the double the sequential loop computes for frequency i, for every arithmetic. *)
Theorem C115_mem_any_schedule : forall (D : Type) (zero : D) angular plus scale part_r part_i go_r go_i freq n value dealt schedule s,
  (forall i, i < n ->
    let w := angular (freq i) in
    exists a b, (if go_r : bool then exists y, part_r w = Some y /\ a = plus zero y else a = zero) /\ (if go_i : bool then exists y, part_i w = Some y /\ b = plus a y else b = a) /\ value i = scale b) ->
  deals n dealt -> run angular_frequency_is_private freq n schedule (start (mem_body zero angular plus scale part_r part_i go_r go_i) dealt) = Some s ->
  ~ race angular_frequency_is_private s /\ (forall t r x rest, nth_error (threads s) t = Some (r, x :: rest) -> exists s', step angular_frequency_is_private freq n t s = Some s') /\
  length schedule + steps_left s = steps_left (start (mem_body zero angular plus scale part_r part_i go_r go_i) dealt) /\
  (finished s -> forall i, i < n -> ps (shared s) i = Some (value i)).
Proof.
  intros D zero angular plus scale part_r part_i go_r go_i freq n value dealt schedule s HV P E. apply everything; [| |exact P|exact E].
  - intros i x H. unfold mem_body in H. destruct go_r, go_i; cbn in H; repeat (destruct H as [<-|H]; [reflexivity|]); contradiction.
  - intros i Hi r m. destruct (HV i Hi) as (a & b & Ha & Hb & Hv). assert (Q : (i <? n) = true) by (apply Nat.ltb_lt, Hi). assert (K : (i =? i) = true) by apply Nat.eqb_refl.
    unfold mem_body. destruct go_r, go_i.
    + destruct Ha as (y & Py & ->), Hb as (z & Pz & ->). unfold exec. repeat (cbn [app alone exec index shared ps put own_ang reg the_ang]; unfold exec; cbn [index]; rewrite ?Q; cbn [ps put own_ang reg the_ang]; unfold put; rewrite ?K, ?Py, ?Pz).
      eexists _, _. split; [reflexivity|]. cbn [ps]. rewrite K, Hv. split; [reflexivity|]. intros k Hk. destruct (Nat.eqb_spec k i); [contradiction|reflexivity].
    + destruct Ha as (y & Py & ->). subst b. repeat (cbn [app alone exec index shared ps put own_ang reg the_ang]; unfold exec; cbn [index]; rewrite ?Q; cbn [ps put own_ang reg the_ang]; unfold put; rewrite ?K, ?Py).
      eexists _, _. split; [reflexivity|]. cbn [ps]. rewrite K, Hv. split; [reflexivity|]. intros k Hk. destruct (Nat.eqb_spec k i); [contradiction|reflexivity].
    + subst a. destruct Hb as (z & Pz & ->). repeat (cbn [app alone exec index shared ps put own_ang reg the_ang]; unfold exec; cbn [index]; rewrite ?Q; cbn [ps put own_ang reg the_ang]; unfold put; rewrite ?K, ?Pz).
      eexists _, _. split; [reflexivity|]. cbn [ps]. rewrite K, Hv. split; [reflexivity|]. intros k Hk. destruct (Nat.eqb_spec k i); [contradiction|reflexivity].
    + subst b a. repeat (cbn [app alone exec index shared ps put own_ang reg the_ang]; unfold exec; cbn [index]; rewrite ?Q; cbn [ps put own_ang reg the_ang]; unfold put; rewrite ?K).
      eexists _, _. split; [reflexivity|]. cbn [ps]. rewrite K, Hv. split; [reflexivity|]. intros k Hk. destruct (Nat.eqb_spec k i); [contradiction|reflexivity].
Qed.
Print Assumptions C115_mem_any_schedule.
(** Direct correlation: the same. *)
Theorem C115_correlation_any_schedule : forall (D : Type) (angular : D -> D) evaluate freq n value dealt schedule s,
  (forall i, i < n -> evaluate (angular (freq i)) = Some (value i)) ->
  deals n dealt -> run angular_frequency_is_private freq n schedule (start (corr_body angular evaluate) dealt) = Some s ->
  ~ race angular_frequency_is_private s /\ (forall t r x rest, nth_error (threads s) t = Some (r, x :: rest) -> exists s', step angular_frequency_is_private freq n t s = Some s') /\
  length schedule + steps_left s = steps_left (start (corr_body angular evaluate) dealt) /\
  (finished s -> forall i, i < n -> ps (shared s) i = Some (value i)).
Proof.
  intros D angular evaluate freq n value dealt schedule s HV P E. apply everything; [| |exact P|exact E].
  - intros i x [<-|[<-|[]]]; reflexivity.
  - intros i Hi r m. assert (Q : (i <? n) = true) by (apply Nat.ltb_lt, Hi). unfold corr_body. cbn [alone]. unfold exec. cbn [index]. rewrite Q. cbn [own_ang]. rewrite (HV i Hi).
    eexists _, _. split; [reflexivity|]. cbn [ps]. unfold put. rewrite Nat.eqb_refl. split; [reflexivity|]. intros k Hk. destruct (Nat.eqb_spec k i); [contradiction|reflexivity].
Qed.
Print Assumptions C115_correlation_any_schedule.

(** Every started loop can be completed, from every state it can be in. *)
Theorem C115_completes : forall (D : Type) (angular : D -> D) evaluate freq n value dealt schedule s,
  (forall i, i < n -> evaluate (angular (freq i)) = Some (value i)) ->
  deals n dealt -> run angular_frequency_is_private freq n schedule (start (corr_body angular evaluate) dealt) = Some s ->
  exists rest s', run angular_frequency_is_private freq n (schedule ++ rest) (start (corr_body angular evaluate) dealt) = Some s' /\ finished s'.
Proof.
  intros D angular evaluate freq n value dealt schedule s HV P.
  remember (steps_left s) as k eqn:Ek. revert schedule s Ek. induction k as [|k IH]; intros schedule s Ek E.
  - exists [], s. rewrite app_nil_r. split; [exact E|]. intros t Ht. unfold steps_left in Ek. clear - Ek Ht. unfold list_sum in Ek. induction (threads s) as [|a l IH]; [contradiction|].
    cbn [map fold_right] in Ek. destruct Ht as [->|Ht]; [destruct (snd t); [reflexivity|cbn in Ek; lia]|apply IH; [|exact Ht]; lia].
  - assert (exists t r x rest, nth_error (threads s) t = Some (r, x :: rest)) as (t & r & x & rest & Et).
    { unfold steps_left, list_sum in Ek. clear - Ek. induction (threads s) as [|[r [|x rest]] l IH].
      - discriminate Ek.
      - cbn [map fold_right snd length] in Ek. destruct (IH Ek) as (t & q & y & z & H). exists (S t), q, y, z. exact H.
      - exists 0, r, x, rest. reflexivity. }
    destruct (C115_correlation_any_schedule D angular evaluate freq n value dealt schedule s HV P E) as (_ & Pr & C0 & _). destruct (Pr t r x rest Et) as (s1 & E1).
    assert (E2 : run angular_frequency_is_private freq n (schedule ++ [t]) (start (corr_body angular evaluate) dealt) = Some s1).
    { clear - E E1. revert E. generalize (start (corr_body angular evaluate) dealt). induction schedule as [|u l IH]; intros s0 E; cbn in *; [injection E as ->; rewrite E1; reflexivity|]. destruct (step _ freq n u s0); [apply IH, E|discriminate]. }
    destruct (C115_correlation_any_schedule D angular evaluate freq n value dealt _ s1 HV P E2) as (_ & _ & C1 & _). rewrite app_length in C1. cbn [length] in C1.
    destruct (IH (schedule ++ [t]) s1 ltac:(lia) E2) as (rest' & s' & E3 & F). exists (t :: rest'), s'. rewrite <- app_assoc in E3. auto.
Qed.
Print Assumptions C115_completes.

(** The sequential models of c/mem.c and c/correlation.c are what every schedule computes. *)
Local Open Scope R_scope.
Theorem C115_mem_spectrum : forall dr di N M dt freq n value cr ci dealt schedule s,
  MemModel.GetCoefficients dr N M = Some cr -> MemModel.GetCoefficients di N M = Some ci ->
  (forall i, (i < n)%nat -> MemModel.mem_frequency dr di N M dt (freq i) = Some (value i)) -> deals n dealt ->
  let nonzero x := if Req_EM_T x 0 then false else true in
  run angular_frequency_is_private freq n schedule
    (start (mem_body 0 (fun f => f * 2 * PI) Rplus (fun x => x * dt) (fun w => MemModel.FrequencyEvaluation (w * dt) (snd cr) M (fst cr)) (fun w => MemModel.FrequencyEvaluation (w * dt) (snd ci) M (fst ci))
       (nonzero (fst cr)) (nonzero (fst ci))) dealt) = Some s ->
  finished s -> forall i, (i < n)%nat -> ps (shared s) i = Some (value i).
Proof.
  intros dr di N M dt freq n value cr ci dealt schedule s Er Ei HV P nonzero E. refine (proj2 (proj2 (proj2 (C115_mem_any_schedule R _ _ _ _ _ _ _ _ freq n value dealt schedule s _ P E)))).
  intros i Hi w. specialize (HV i Hi). unfold MemModel.mem_frequency in HV. rewrite Er, Ei in HV. cbn [CMem.bind] in HV. fold w in HV. unfold nonzero.
  destruct (Req_EM_T (fst cr) 0), (Req_EM_T (fst ci) 0); cbn [CMem.bind] in HV.
  - exists 0, 0. split; [reflexivity|]. split; [reflexivity|]. injection HV as <-. ring.
  - destruct (MemModel.FrequencyEvaluation (w * dt) (snd ci) M (fst ci)) as [y|] eqn:Fy; [|discriminate]. exists 0, (0 + y). split; [reflexivity|]. split; [exists y; auto|]. injection HV as <-. ring.
  - destruct (MemModel.FrequencyEvaluation (w * dt) (snd cr) M (fst cr)) as [y|] eqn:Fy; [|discriminate]. exists (0 + y), (0 + y). split; [exists y; auto|]. split; [reflexivity|]. injection HV as <-. ring.
  - destruct (MemModel.FrequencyEvaluation (w * dt) (snd cr) M (fst cr)) as [y|] eqn:Fy; [|discriminate]. cbn [CMem.bind] in HV. destruct (MemModel.FrequencyEvaluation (w * dt) (snd ci) M (fst ci)) as [z|] eqn:Fz; [|discriminate].
    exists (0 + y), (0 + y + z). split; [exists y; auto|]. split; [exists z; auto|]. injection HV as <-. ring.
Qed.
Print Assumptions C115_mem_spectrum.
Theorem C115_correlation_spectrum : forall fuel v dt inc method freqs value dealt schedule s,
  CorrelationModel.correlation_par fuel freqs v dt inc method = map CorrelationModel.Number value -> deals (length freqs) dealt ->
  run angular_frequency_is_private (fun i => nth i freqs 0) (length freqs) schedule
    (start (corr_body (fun f => f * 2 * PI) (fun w => match CorrelationModel.EvaluateCorrelation fuel w v dt inc method with CorrelationModel.Number x => Some x | _ => None end)) dealt) = Some s ->
  finished s -> forall i, (i < length freqs)%nat -> ps (shared s) i = nth_error value i.
Proof.
  intros fuel v dt inc method freqs value dealt schedule s HV P E F i Hi.
  assert (L : length value = length freqs) by (apply (f_equal (@length _)) in HV; unfold CorrelationModel.correlation_par in HV; rewrite !map_length in HV; auto).
  assert (K : forall k, (k < length freqs)%nat -> CorrelationModel.EvaluateCorrelation fuel (nth k freqs 0 * 2 * PI) v dt inc method = CorrelationModel.Number (nth k value 0)).
  { intros k Hk. assert (Q : nth_error (CorrelationModel.correlation_par fuel freqs v dt inc method) k = nth_error (map CorrelationModel.Number value) k) by (rewrite HV; reflexivity).
    unfold CorrelationModel.correlation_par in Q. rewrite (map_nth_error _ k freqs (nth_error_nth' freqs 0 Hk)) in Q. rewrite <- L in Hk. rewrite (map_nth_error _ k value (nth_error_nth' value 0 Hk)) in Q. injection Q as Q. exact Q. }
  rewrite (nth_error_nth' value 0) by (rewrite L; exact Hi).
  refine (proj2 (proj2 (proj2 (C115_correlation_any_schedule R _ _ _ _ (fun i => nth i value 0) dealt schedule s _ P E))) F i Hi).
  intros k Hk. cbv beta. rewrite (K k Hk). reflexivity.
Qed.
Print Assumptions C115_correlation_spectrum.

(** Three frequencies, two threads, an interleaving in which each thread is interrupted in the middle of an iteration; natural numbers for doubles. *)
Local Open Scope nat_scope.
Definition example_body := mem_body 0 (fun f => 10 * f) Nat.add (fun x => 2 * x) (fun w => Some (w + 1)) (fun w => Some (w + 2)) true true.
Example C115_nonvacuous : let freq i := i + 1 in let dealt := [[2; 0]; [1]] in let schedule := [0; 1; 0; 1; 1; 0; 0; 0; 1; 1; 1; 0; 0; 1; 0; 1; 0; 0; 0; 0; 0; 0; 0; 0] in
  deals 3 dealt /\ exists s, run angular_frequency_is_private freq 3 schedule (start example_body dealt) = Some s /\ finished s /\ map (ps (shared s)) [0; 1; 2] = [Some 46; Some 86; Some 126].
Proof.
  intros freq dealt schedule. split.
  - apply NoDup_Permutation; [repeat constructor; cbn; lia|repeat constructor; cbn; lia|intros x; cbn; lia].
  - eexists. split; [vm_compute; reflexivity|]. split; [intros t [<-|[<-|[]]]; reflexivity|reflexivity].
Qed.
(** The clause private(AngularFrequency) is needed: without it there are races and an interleaving with wrong results. *)
Example C115_private_needed : let freq i := i + 1 in let dealt := [[0]; [1]] in let start := start (corr_body (fun f => 10 * f) (fun w => Some w)) dealt in
  race false start /\ exists s, run false freq 2 [0; 1; 0; 1] start = Some s /\ finished s /\ map (ps (shared s)) [0; 1] = [Some 20; Some 20].
Proof.
  intros freq dealt start. split.
  - exists 0, 1. do 6 eexists. exists Variable_, true, true. split; [lia|]. split; [reflexivity|]. split; [reflexivity|]. cbn. auto.
  - eexists. split; [vm_compute; reflexivity|]. split; [intros t [<-|[<-|[]]]; reflexivity|reflexivity].
Qed.
