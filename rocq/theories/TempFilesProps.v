(** C105: memory-mapped trajectories and their temporary files. *)
From Verif Require Import TempFilesModel.
From Coq Require Import List String Arith Lia Bool DecimalString DecimalNat.
Import ListNotations.
Open Scope nat_scope.

(** * Specification *)
Section Spec.
Context {X : Type} (unscale displace massweight : X -> X) (gradient : list X -> list X).
(** the value of a quantity of a trajectory that was read as [k] with frames [d], kept in memory; None when there is no such quantity *)
Definition value_of (k : kind) (d : list X) (q : quantity) : option (list X) :=
  let positions := match k with Positions => Some d | Scaled => Some (map unscale d) | Velocities => None end in
  let displacements := option_map (map displace) positions in
  let velocities := match k with Velocities => Some d | _ => option_map gradient displacements end in
  match q with QTrajectory => positions | QRelative => displacements | QVelocity => velocities | QMass => option_map (map massweight) velocities end.
(** a schedule of calls of several processes, with every trajectory in memory of its own: what each call returns *)
Definition table := nat -> nat -> option (kind * list X).
Definition put (t : table) (pid slot : nat) (v : option (kind * list X)) : table := fun p s => if (Nat.eqb p pid && Nat.eqb s slot)%bool then v else t p s.
Fixpoint in_memory (l : list (nat * nat * call X)) (t : table) : list (option (list X)) :=
  match l with
  | [] => []
  | (pid, slot, Load k d) :: l => None :: in_memory l (put t pid slot (Some (k, d)))
  | (pid, slot, Get q) :: l => match t pid slot with Some (k, d) => value_of k d q | None => None end :: in_memory l t
  | (pid, slot, Delete) :: l => None :: in_memory l (put t pid slot None)
  end.
(** the processes that read a trajectory, one entry for each reading *)
Definition readers (l : list (nat * nat * call X)) : list nat := flat_map (fun e => match snd e with Load _ _ => [fst (fst e)] | _ => [] end) l.
End Spec.
(** a file system without hard links; [next] is beyond all files *)
Definition no_links {X} (s : files X) : Prop :=
  (forall a b i, dir s a = Some i -> dir s b = Some i -> a = b) /\ (forall a i, dir s a = Some i -> i < next s).

(** * Names *)
Lemma fname_inj f g p q : fname f p = fname g q -> f = g /\ p = q.
Proof.
  assert (N : forall p q, NilEmpty.string_of_uint (Nat.to_uint p) = NilEmpty.string_of_uint (Nat.to_uint q) -> p = q).
  { intros a b H. assert (E : Nat.to_uint a = Nat.to_uint b). { assert (A := NilEmpty.usu (Nat.to_uint a)). rewrite H, NilEmpty.usu in A. congruence. }
    rewrite <- (Unsigned.of_to a), <- (Unsigned.of_to b), E. reflexivity. }
  unfold fname. destruct f, g; cbn; intros H; try discriminate H; (split; [reflexivity|]); apply N; congruence.
Qed.

Section Proofs.
Context {X : Type} (zero : X) (unscale displace massweight : X -> X) (gradient : list X -> list X) (gradient_length : forall l, List.length (gradient l) = List.length l).
Local Notation exp := (value_of unscale displace massweight gradient).
Local Notation getq := (TempFilesModel.get zero unscale displace massweight gradient).
Implicit Types (s : files X) (o : obj X).

(** files outside [P] keep name and contents *)
Definition frame (P : string -> Prop) s s' : Prop := forall n, ~ P n -> dir s' n = dir s n /\ forall i, dir s n = Some i -> node s' i = node s i.
Lemma frame_refl P s : frame P s s.
Proof. intros n _. split; [reflexivity|reflexivity]. Qed.
Lemma frame_trans P s1 s2 s3 : frame P s1 s2 -> frame P s2 s3 -> frame P s1 s3.
Proof. intros A B n H. destruct (A n H) as [A1 A2], (B n H) as [B1 B2]. split; [congruence|]. intros i Hi. rewrite <- (A2 i Hi). apply B2. congruence. Qed.
Lemma frame_weaken (P Q : string -> Prop) s s' : (forall n, P n -> Q n) -> frame P s s' -> frame Q s s'.
Proof. intros I F n H. apply F. intros K. apply H, I, K. Qed.
Definition of_process (p : nat) (n : string) : Prop := exists f, n = fname f p.

Lemma mapped_ok name l s : no_links s ->
  exists i s', mapped zero name (List.length l) l s = Some (Map name i (List.length l), s') /\ dir s' name = Some i /\ node s' i = l /\ no_links s' /\ frame (eq name) s s'.
Proof.
  intros [NL1 NL2]. unfold mapped, np_memmap. destruct (dir s name) as [i|] eqn:E.
  - exists i. eexists. split; [|split; [|split; [|split]]].
    + unfold write_arr, set_node. cbn. rewrite Nat.eqb_refl, repeat_length, Nat.leb_refl. reflexivity.
    + exact E.
    + cbn. unfold set_node. rewrite Nat.eqb_refl, firstn_all. rewrite skipn_all2 by (rewrite repeat_length; lia). apply app_nil_r.
    + split; cbn; assumption.
    + intros n Hn. cbn. split; [reflexivity|]. intros j Hj. unfold set_node. destruct (Nat.eqb_spec j i) as [->|]; [|reflexivity]. exfalso. apply Hn. symmetry. exact (NL1 _ _ _ Hj E).
  - exists (next s). eexists. split; [|split; [|split; [|split]]].
    + unfold write_arr, set_node. cbn. rewrite Nat.eqb_refl, repeat_length, Nat.leb_refl. reflexivity.
    + cbn. unfold set_dir. rewrite String.eqb_refl. reflexivity.
    + cbn. unfold set_node. rewrite Nat.eqb_refl, firstn_all. rewrite skipn_all2 by (rewrite repeat_length; lia). apply app_nil_r.
    + split; cbn; unfold set_dir.
      * intros a b j. destruct (String.eqb_spec a name) as [Ea|Ea], (String.eqb_spec b name) as [Eb|Eb]; intros Ha Hb; [congruence| | |eauto].
        -- exfalso. assert (L := NL2 _ _ Hb). assert (next s = j) by congruence. lia.
        -- exfalso. assert (L := NL2 _ _ Ha). assert (next s = j) by congruence. lia.
      * intros a j. destruct (String.eqb_spec a name); intros Ha; [assert (next s = j) by congruence; lia|assert (L := NL2 _ _ Ha); lia].
    + intros n Hn. cbn. unfold set_dir, set_node. destruct (String.eqb_spec n name) as [->|]; [exfalso; apply Hn; reflexivity|]. split; [reflexivity|].
      intros j Hj. destruct (Nat.eqb_spec j (next s)) as [->|]; [|reflexivity]. assert (L := NL2 _ _ Hj). lia.
Qed.

(** the field [x] is a map of file [f] of process [p] that contains [l] *)
Definition is_map s p f l (x : option (arr X)) : Prop := exists i, x = Some (Map (fname f p) i (List.length l)) /\ dir s (fname f p) = Some i /\ node s i = l.
Definition maybe s p f v (x : option (arr X)) : Prop := x = None \/ exists l, v = Some l /\ is_map s p f l x.
Definition own s p (k : kind) (d : list X) o : Prop :=
  match k with
  | Positions => o_scaled o = None /\ is_map s p FTrajectory d (o_traj o) /\ maybe s p FVelocity (exp k d QVelocity) (o_vel o)
  | Velocities => o_scaled o = None /\ o_traj o = None /\ is_map s p FTrajectory d (o_vel o)
  | Scaled => is_map s p FTrajectory d (o_scaled o) /\ (o_traj o = None \/ o_traj o = Some (Mem (map unscale d))) /\ maybe s p FVelocity (exp k d QVelocity) (o_vel o)
  end /\ maybe s p FRelative (exp k d QRelative) (o_rel o) /\ maybe s p FMass (exp k d QMass) (o_mass o).

Lemma read_map s p f l x : is_map s p f l x -> exists a, x = Some a /\ read_arr s a = Some l.
Proof. intros [i [-> [_ E]]]. eexists. split; [reflexivity|]. cbn. rewrite E, Nat.leb_refl, firstn_all. reflexivity. Qed.
Lemma is_map_frame P s s' p f l x : frame P s s' -> ~ P (fname f p) -> is_map s p f l x -> is_map s' p f l x.
Proof. intros F H [i [-> [D N]]]. destruct (F _ H) as [F1 F2]. exists i. split; [reflexivity|]. split; [congruence|]. rewrite (F2 i D). exact N. Qed.
Lemma maybe_frame P s s' p f v x : frame P s s' -> ~ P (fname f p) -> maybe s p f v x -> maybe s' p f v x.
Proof. intros F H [A|[l [A B]]]; [left; exact A|right]. exists l. split; [exact A|]. exact (is_map_frame P s s' p f l x F H B). Qed.
Lemma own_frame P s s' p k d o : frame P s s' -> (forall f, ~ P (fname f p)) -> own s p k d o -> own s' p k d o.
Proof.
  intros F H [A [B C]]. split; [|split; [exact (maybe_frame P s s' _ _ _ _ F (H _) B)|exact (maybe_frame P s s' _ _ _ _ F (H _) C)]].
  destruct k.
  - destruct A as [A1 [A2 A3]]. split; [exact A1|]. split; [exact (is_map_frame P s s' _ _ _ _ F (H _) A2)|exact (maybe_frame P s s' _ _ _ _ F (H _) A3)].
  - destruct A as [A1 [A2 A3]]. split; [exact A1|]. split; [exact A2|exact (is_map_frame P s s' _ _ _ _ F (H _) A3)].
  - destruct A as [A1 [A2 A3]]. split; [exact (is_map_frame P s s' _ _ _ _ F (H _) A1)|]. split; [exact A2|exact (maybe_frame P s s' _ _ _ _ F (H _) A3)].
Qed.
Lemma new_map p f l s s' i : dir s' (fname f p) = Some i -> node s' i = l -> is_map s' p f l (Some (Map (fname f p) i (List.length l))).
Proof. intros D N. exists i. split; [reflexivity|]. split; assumption. Qed.

(** what a getter does: it returns the value or fails; it touches only files of its process *)
Definition good (p : nat) (k : kind) (d : list X) (q : quantity) s (r : @got X) : Prop :=
  match exp k d q with
  | None => r = None
  | Some l => exists o' s', r = Some (l, o', s') /\ own s' p k d o' /\ no_links s' /\ frame (of_process p) s s'
  end.
(** the objects of [own] only name files of the process, and which files a getter creates *)
Lemma traj_good p k d o s : no_links s -> own s p k d o ->
  match exp k d QTrajectory with
  | None => trajectory unscale o s = None
  | Some l => exists o', trajectory unscale o s = Some (l, o', s) /\ own s p k d o' /\ o_rel o' = o_rel o /\ o_vel o' = o_vel o /\ o_mass o' = o_mass o
  end.
Proof.
  intros NL [A [B C]]. destruct k; cbn.
  - destruct A as [A1 [A2 A3]]. destruct (read_map _ _ _ _ _ A2) as [a [Ea Ra]]. exists o. split; [|split; [split; [split; [exact A1|split; assumption]|split; assumption]|repeat split]].
    unfold trajectory. rewrite Ea, Ra. reflexivity.
  - destruct A as [A1 [A2 A3]]. unfold trajectory. rewrite A2, A1. reflexivity.
  - destruct A as [A1 [A2 A3]]. destruct (read_map _ _ _ _ _ A1) as [a [Ea Ra]]. unfold trajectory. destruct A2 as [A2|A2]; rewrite A2.
    + rewrite Ea, Ra. cbn. eexists. split; [reflexivity|]. split; [|repeat split].
      split; [|split; assumption]. cbn. split; [rewrite <- Ea; exact A1|]. split; [right; reflexivity|exact A3].
    + exists o. split; [reflexivity|]. split; [|repeat split]. split; [split; [exact A1|split; [right; exact A2|exact A3]]|split; assumption].
Qed.
(** the shape shared by the three getters that create a file *)
Lemma names_ne f g p : f <> g -> fname f p <> fname g p.
Proof. intros H E. apply H. exact (proj1 (fname_inj _ _ _ _ E)). Qed.
Lemma names_ne_p f g p q : p <> q -> fname f p <> fname g q.
Proof. intros H E. apply H. exact (proj2 (fname_inj _ _ _ _ E)). Qed.

Lemma rel_good p k d o s : no_links s -> own s p k d o ->
  match exp k d QRelative with
  | None => relative zero unscale displace p o s = None
  | Some l => exists o' s', relative zero unscale displace p o s = Some (l, o', s') /\ own s' p k d o' /\ no_links s' /\ frame (eq (fname FRelative p)) s s' /\ o_vel o' = o_vel o /\ o_mass o' = o_mass o
  end.
Proof.
  intros NL O. assert (O' := O). destruct O' as [_ [B _]]. unfold relative.
  destruct B as [B|[l [El B]]].
  - rewrite B. assert (T := traj_good p k d o s NL O). change (exp k d QRelative) with (option_map (map displace) (exp k d QTrajectory)). destruct (exp k d QTrajectory) as [t|] eqn:Et; cbn [option_map].
    + destruct T as [o1 [E1 [O1 [Er [Ev Em]]]]]. rewrite E1.
      replace (List.length t) with (List.length (map displace t)) by apply map_length.
      destruct (mapped_ok (fname FRelative p) (map displace t) s NL) as [i [s' [E2 [D [N [NL' F]]]]]]. rewrite E2.
      assert (M := new_map p FRelative (map displace t) s s' i D N). destruct (read_map _ _ _ _ _ M) as [a [Ea Ra]]. injection Ea as <-. rewrite Ra. cbn.
      eexists. exists s'. split; [reflexivity|]. split; [|split; [exact NL'|split; [exact F|split; assumption]]].
      assert (Q : exp k d QRelative = Some (map displace t)) by (change (exp k d QRelative) with (option_map (map displace) (exp k d QTrajectory)); rewrite Et; reflexivity).
      destruct O1 as [A [_ C]]. split; [|split; [right; exists (map displace t); split; [exact Q|exact M]|]].
      * destruct k; cbn in A |- *.
        -- destruct A as [A1 [A2 A3]]. split; [exact A1|]. split; [refine (is_map_frame _ _ _ _ _ _ _ F _ A2)|refine (maybe_frame _ _ _ _ _ _ _ F _ A3)]; apply names_ne; discriminate.
        -- discriminate Et.
        -- destruct A as [A1 [A2 A3]]. split; [refine (is_map_frame _ _ _ _ _ _ _ F _ A1); apply names_ne; discriminate|]. split; [exact A2|refine (maybe_frame _ _ _ _ _ _ _ F _ A3)]. apply names_ne; discriminate.
      * cbn. refine (maybe_frame _ _ _ _ _ _ _ F _ C). apply names_ne. discriminate.
    + rewrite T. reflexivity.
  - destruct (read_map _ _ _ _ _ B) as [a [Ea Ra]]. rewrite Ea, Ra, El. cbn. exists o, s. split; [reflexivity|]. split; [exact O|]. split; [exact NL|]. split; [apply frame_refl|split; reflexivity].
Qed.
Lemma vel_good p k d o s : no_links s -> own s p k d o ->
  match exp k d QVelocity with
  | None => velocity zero unscale displace gradient p o s = None
  | Some l => exists o' s', velocity zero unscale displace gradient p o s = Some (l, o', s') /\ own s' p k d o' /\ no_links s' /\ frame (fun n => n = fname FRelative p \/ n = fname FVelocity p) s s' /\ o_mass o' = o_mass o
  end.
Proof.
  intros NL O. assert (O' := O). destruct O' as [A _]. unfold velocity.
  assert (Case : (k = Velocities /\ is_map s p FTrajectory d (o_vel o)) \/ (k <> Velocities /\ maybe s p FVelocity (exp k d QVelocity) (o_vel o))).
  { destruct k; [right; split; [discriminate|]|left; split; [reflexivity|]|right; split; [discriminate|]]; apply A. }
  destruct Case as [[Ek M]|[Hk B]].
  - subst k. destruct (read_map _ _ _ _ _ M) as [a [Ea Ra]]. cbn [value_of]. rewrite Ea, Ra. cbn. exists o, s. split; [reflexivity|]. split; [exact O|]. split; [exact NL|]. split; [apply frame_refl|reflexivity].
  - destruct B as [B|[l [El B]]].
    + rewrite B. assert (T := rel_good p k d o s NL O).
      assert (Q0 : exp k d QVelocity = option_map gradient (exp k d QRelative)) by (destruct k; [reflexivity|contradiction|reflexivity]). rewrite Q0.
      destruct (exp k d QRelative) as [r|] eqn:Er; cbn [option_map].
      * destruct T as [o1 [s1 [E1 [O1 [NL1 [F1 [Ev Em]]]]]]]. rewrite E1.
        replace (List.length r) with (List.length (gradient r)) by apply gradient_length.
        destruct (mapped_ok (fname FVelocity p) (gradient r) s1 NL1) as [i [s' [E2 [D [N [NL' F]]]]]]. rewrite E2.
        assert (M := new_map p FVelocity (gradient r) s1 s' i D N). destruct (read_map _ _ _ _ _ M) as [a [Ea Ra]]. injection Ea as <-. rewrite Ra. cbn.
        eexists. exists s'. split; [reflexivity|]. split; [|split; [exact NL'|split; [|exact Em]]].
        -- destruct O1 as [A1 [B1 C1]]. split; [|split].
           ++ assert (V : maybe s' p FVelocity (exp k d QVelocity) (Some (Map (fname FVelocity p) i (List.length (gradient r))))) by (right; exists (gradient r); split; [exact Q0|exact M]).
              destruct k; cbn in A1 |- *.
              ** destruct A1 as [A1 [A2 A3]]. split; [exact A1|]. split; [refine (is_map_frame _ _ _ _ _ _ _ F _ A2); apply names_ne; discriminate|exact V].
              ** contradiction.
              ** destruct A1 as [A1 [A2 A3]]. split; [refine (is_map_frame _ _ _ _ _ _ _ F _ A1); apply names_ne; discriminate|]. split; [exact A2|exact V].
           ++ refine (maybe_frame _ _ _ _ _ _ _ F _ B1). apply names_ne. discriminate.
           ++ cbn. refine (maybe_frame _ _ _ _ _ _ _ F _ C1). apply names_ne. discriminate.
        -- apply (frame_trans _ s s1 s'); [revert F1|revert F]; apply frame_weaken; intros n <-; [left|right]; reflexivity.
      * rewrite T. reflexivity.
    + destruct (read_map _ _ _ _ _ B) as [a [Ea Ra]]. rewrite Ea, Ra, El. cbn. exists o, s. split; [reflexivity|]. split; [exact O|]. split; [exact NL|]. split; [apply frame_refl|reflexivity].
Qed.
Lemma mass_good p k d o s : no_links s -> own s p k d o -> good p k d QMass s (velocity_mass zero unscale displace massweight gradient p o s).
Proof.
  intros NL O. assert (O' := O). destruct O' as [_ [_ C]]. unfold good, velocity_mass. destruct C as [C|[l [El C]]].
  - rewrite C. assert (T := vel_good p k d o s NL O). assert (Q0 : exp k d QMass = option_map (map massweight) (exp k d QVelocity)) by reflexivity. rewrite Q0.
    destruct (exp k d QVelocity) as [v|] eqn:Ev; cbn [option_map].
    + destruct T as [o1 [s1 [E1 [O1 [NL1 [F1 Em]]]]]]. rewrite E1. replace (List.length v) with (List.length (map massweight v)) by apply map_length.
      destruct (mapped_ok (fname FMass p) (map massweight v) s1 NL1) as [i [s' [E2 [D [N [NL' F]]]]]]. rewrite E2.
      assert (M := new_map p FMass (map massweight v) s1 s' i D N). destruct (read_map _ _ _ _ _ M) as [a [Ea Ra]]. injection Ea as <-. rewrite Ra. cbn.
      eexists. exists s'. split; [reflexivity|]. split; [|split; [exact NL'|]].
      * destruct O1 as [A1 [B1 _]]. split; [|split].
        -- destruct k; cbn in A1 |- *.
           ++ destruct A1 as [A1 [A2 A3]]. split; [exact A1|]. split; [refine (is_map_frame _ _ _ _ _ _ _ F _ A2)|refine (maybe_frame _ _ _ _ _ _ _ F _ A3)]; apply names_ne; discriminate.
           ++ destruct A1 as [A1 [A2 A3]]. split; [exact A1|]. split; [exact A2|]. refine (is_map_frame _ _ _ _ _ _ _ F _ A3). apply names_ne; discriminate.
           ++ destruct A1 as [A1 [A2 A3]]. split; [refine (is_map_frame _ _ _ _ _ _ _ F _ A1); apply names_ne; discriminate|]. split; [exact A2|]. refine (maybe_frame _ _ _ _ _ _ _ F _ A3). apply names_ne; discriminate.
        -- refine (maybe_frame _ _ _ _ _ _ _ F _ B1). apply names_ne. discriminate.
        -- right. exists (map massweight v). split; [|exact M]. rewrite Q0. first [reflexivity|rewrite Ev; reflexivity].
      * apply (frame_trans _ s s1 s'); [revert F1|revert F]; apply frame_weaken; intros n H; [destruct H as [-> | ->]; eexists; reflexivity|subst n; eexists; reflexivity].
    + rewrite T. reflexivity.
  - destruct (read_map _ _ _ _ _ C) as [a [Ea Ra]]. rewrite Ea, Ra, El. cbn. exists o, s. split; [reflexivity|]. split; [exact O|]. split; [exact NL|apply frame_refl].
Qed.
Lemma get_good p k d o s q : no_links s -> own s p k d o -> good p k d q s (getq p q o s).
Proof.
  intros NL O. destruct q; unfold good, TempFilesModel.get.
  - assert (T := traj_good p k d o s NL O). destruct (exp k d QTrajectory); [|exact T]. destruct T as [o' [E [O' _]]]. exists o', s. split; [exact E|]. split; [exact O'|]. split; [exact NL|apply frame_refl].
  - assert (T := rel_good p k d o s NL O). destruct (exp k d QRelative); [|exact T]. destruct T as [o' [s' [E [O' [NL' [F _]]]]]]. exists o', s'. split; [exact E|]. split; [exact O'|]. split; [exact NL'|].
    revert F. apply frame_weaken. intros n <-. eexists. reflexivity.
  - assert (T := vel_good p k d o s NL O). destruct (exp k d QVelocity); [|exact T]. destruct T as [o' [s' [E [O' [NL' [F _]]]]]]. exists o', s'. split; [exact E|]. split; [exact O'|]. split; [exact NL'|].
    revert F. apply frame_weaken. intros n [-> | ->]; eexists; reflexivity.
  - exact (mass_good p k d o s NL O).
Qed.
Lemma load_good p k d s : no_links s -> exists o' s', load zero p k d s = Some (o', s') /\ own s' p k d o' /\ no_links s' /\ frame (of_process p) s s'.
Proof.
  intros NL. unfold load. destruct (mapped_ok (fname FTrajectory p) d s NL) as [i [s' [E [D [N [NL' F]]]]]]. rewrite E.
  assert (M := new_map p FTrajectory d s s' i D N). eexists. exists s'. split; [reflexivity|].
  split; [|split; [exact NL'|revert F; apply frame_weaken; intros n <-; eexists; reflexivity]].
  destruct k; (split; [|split; [left; reflexivity|left; reflexivity]]); cbn.
  - split; [reflexivity|]. split; [exact M|left; reflexivity].
  - split; [reflexivity|]. split; [reflexivity|exact M].
  - split; [exact M|]. split; [left; reflexivity|left; reflexivity].
Qed.
(** deleting *)
Definition named (p : nat) (x : option (arr X)) : Prop := match x with Some (Map n _ _) => of_process p n | _ => True end.
Lemma is_map_named s p f l x : is_map s p f l x -> named p x.
Proof. intros [i [-> _]]. exists f. reflexivity. Qed.
Lemma maybe_named s p f v x : maybe s p f v x -> named p x.
Proof. intros [->|[l [_ M]]]; [exact I|exact (is_map_named _ _ _ _ _ M)]. Qed.
Lemma own_named s p k d o : own s p k d o -> named p (o_vel o) /\ named p (o_traj o) /\ named p (o_rel o) /\ named p (o_mass o).
Proof.
  intros [A [B C]]. split; [|split; [|split; [exact (maybe_named _ _ _ _ _ B)|exact (maybe_named _ _ _ _ _ C)]]]; destruct k; destruct A as [A1 [A2 A3]].
  - exact (maybe_named _ _ _ _ _ A3). - exact (is_map_named _ _ _ _ _ A3). - exact (maybe_named _ _ _ _ _ A3).
  - exact (is_map_named _ _ _ _ _ A2). - rewrite A2. exact I. - destruct A2 as [-> | ->]; exact I.
Qed.
Lemma remove_ok n s s' : no_links s -> os_remove n s = Some s' -> no_links s' /\ frame (eq n) s s'.
Proof.
  unfold os_remove. destruct (dir s n) eqn:E; [|discriminate]. intros [NL1 NL2] H. injection H as <-. split.
  - split; cbn; unfold set_dir; [intros a b i|intros a i]; [destruct (String.eqb a n), (String.eqb b n)|destruct (String.eqb a n)]; try discriminate; eauto.
  - intros m Hm. cbn. unfold set_dir. destruct (String.eqb_spec m n) as [->|]; [exfalso; apply Hm; reflexivity|]. split; reflexivity.
Qed.
Lemma delete_files_ok p l s : no_links s -> List.Forall (named p) l -> no_links (delete_files l s) /\ frame (of_process p) s (delete_files l s).
Proof.
  revert s. induction l as [|x l IH]; intros s NL H; [split; [exact NL|apply frame_refl]|]. inversion H as [|? ? Hx Hl]; subst. cbn. destruct x as [[m|n i c]|].
  - exact (IH s NL Hl).
  - destruct (os_remove n s) as [s'|] eqn:E; [|split; [exact NL|apply frame_refl]]. destruct (remove_ok n s s' NL E) as [NL' F]. destruct (IH s' NL' Hl) as [NL2 F2]. split; [exact NL2|].
    apply (frame_trans _ s s'); [|exact F2]. revert F. apply frame_weaken. intros k <-. exact Hx.
  - exact (IH s NL Hl).
Qed.
Lemma delete_ok s p k d o s0 : no_links s -> own s0 p k d o -> no_links (delete o s) /\ frame (of_process p) s (delete o s).
Proof. intros NL O. destruct (own_named _ _ _ _ _ O) as [A [B [C D]]]. apply (delete_files_ok p); [exact NL|]. repeat constructor; assumption. Qed.

(** * schedules *)
Definition agrees (w : world X) (t : table) : Prop :=
  no_links (disk w) /\ (forall p a, match objs w p a, t p a with Some o, Some (k, d) => own (disk w) p k d o | None, None => True | _, _ => False end) /\
  (forall p a b, objs w p a <> None -> objs w p b <> None -> a = b).
Lemma other_frame p q s s' k d o : p <> q -> frame (of_process p) s s' -> own s q k d o -> own s' q k d o.
Proof. intros N F O. apply (own_frame _ _ _ _ _ _ _ F); [|exact O]. intros f [g E]. apply N. symmetry. exact (proj2 (fname_inj _ _ _ _ E)). Qed.
Lemma set_obj_same (w : world X) p a (o : option (obj X)) s : objs (set_obj w p a o s) p a = o.
Proof. cbn. rewrite !Nat.eqb_refl. reflexivity. Qed.
Lemma agrees_set w t p a (o : option (obj X)) (v : option (kind * list X)) s :
  agrees w t -> (forall b, b <> a -> objs w p b <> None -> o = None) -> no_links s -> frame (of_process p) (disk w) s ->
  (forall b k d o', b <> a -> objs w p b = Some o' -> own (disk w) p k d o' -> own s p k d o') ->
  match o, v with Some o, Some (k, d) => own s p k d o | None, None => True | _, _ => False end -> agrees (set_obj w p a o s) (put t p a v).
Proof.
  intros [NL [AG UN]] Alone NL' F Same H. split; [exact NL'|]. split.
  - intros q b. cbn [objs set_obj disk]. unfold put. destruct (Nat.eqb_spec q p) as [->|Nq]; cbn [andb].
    + destruct (Nat.eqb_spec b a) as [->|Nb]; [exact H|]. specialize (AG p b). destruct (objs w p b) as [o'|] eqn:E, (t p b) as [[k d]|]; try exact AG. exact (Same b k d o' Nb E AG).
    + specialize (AG q b). destruct (objs w q b) as [o'|], (t q b) as [[k d]|]; try exact AG. exact (other_frame p q _ _ k d o' (fun e => Nq (eq_sym e)) F AG).
  - intros q b c. cbn [objs set_obj]. destruct (Nat.eqb_spec q p) as [->|Nq]; cbn [andb]; [|apply UN].
    destruct (Nat.eqb_spec b a) as [->|Nb], (Nat.eqb_spec c a) as [->|Nc]; intros H1 H2; try reflexivity; try (apply (UN p); assumption).
    + exfalso. apply H1. exact (Alone c Nc H2).
    + exfalso. apply H2. exact (Alone b Nb H1).
Qed.
Lemma run_agrees l : forall w t, agrees w t -> NoDup (readers l) -> (forall p, In p (readers l) -> forall a, objs w p a = None) ->
  fst (run zero unscale displace massweight gradient l w) = in_memory unscale displace massweight gradient l t.
Proof.
  induction l as [|[[p a] c] l IH]; intros w t AG ND FR; [reflexivity|].
  assert (AG' := AG). destruct AG' as [NL [Sp UN]].
  cbn [run in_memory]. destruct c as [k d|q|].
  - (* Load *)
    cbn [readers flat_map snd fst app] in ND, FR. inversion ND as [|? ? Np ND']; subst. unfold do_call.
    destruct (load_good p k d (disk w) NL) as [o' [s' [E [O' [NL' F]]]]]. rewrite E. rewrite (FR p (or_introl eq_refl) a).
    destruct (run _ _ _ _ _ l (set_obj w p a (Some o') s')) as [r w'] eqn:Er. cbn [fst]. f_equal.
    change r with (fst (r, w')). rewrite <- Er. apply IH; [|exact ND'|].
    + apply agrees_set; try assumption.
      * intros b _ Hb. exfalso. apply Hb. exact (FR p (or_introl eq_refl) b).
      * intros b k0 d0 o0 _ Hb. rewrite (FR p (or_introl eq_refl) b) in Hb. discriminate.
    + intros q Hq b. cbn [objs set_obj]. destruct (Nat.eqb_spec q p) as [->|]; [contradiction|]. cbn [andb]. apply FR. right. exact Hq.
  - (* Get *)
    unfold do_call. assert (S0 := Sp p a). destruct (objs w p a) as [o|] eqn:Eo.
    + destruct (t p a) as [[k d]|] eqn:Et; [|contradiction]. assert (G := get_good p k d o (disk w) q NL S0). unfold good in G. destruct (exp k d q) as [v|] eqn:Ev.
      * destruct G as [o' [s' [E [O' [NL' F]]]]]. rewrite E. destruct (run _ _ _ _ _ l _) as [r w'] eqn:Er. cbn [fst]. f_equal. change r with (fst (r, w')). rewrite <- Er.
        assert (AG2 : agrees (set_obj w p a (Some o') s') (put t p a (Some (k, d)))).
        { apply agrees_set; try assumption.
          - intros b Nb Hb. exfalso. apply Nb. apply (UN p); [exact Hb|]. rewrite Eo. discriminate.
          - intros b k0 d0 o0 Nb Hb. exfalso. apply Nb. apply (UN p); [rewrite Hb|rewrite Eo]; discriminate. }
        assert (AG3 : agrees (set_obj w p a (Some o') s') t).
        { destruct AG2 as [Q1 [Q2 Q3]]. split; [exact Q1|]. split; [|exact Q3]. intros q0 b. specialize (Q2 q0 b). replace (t q0 b) with (put t p a (Some (k, d)) q0 b); [exact Q2|].
          unfold put. destruct (Nat.eqb_spec q0 p) as [->|]; cbn [andb]; [|reflexivity]. destruct (Nat.eqb_spec b a) as [->|]; [rewrite Et; reflexivity|reflexivity]. }
        apply IH; [exact AG3|exact ND|]. intros q0 Hq b. cbn [objs set_obj]. destruct (Nat.eqb_spec q0 p) as [->|]; cbn [andb]; [|apply FR; exact Hq].
        exfalso. assert (Z := FR p Hq a). rewrite Eo in Z. discriminate.
      * rewrite G. destruct (run _ _ _ _ _ l w) as [r w'] eqn:Er. cbn [fst]. f_equal. change r with (fst (r, w')). rewrite <- Er. apply IH; assumption.
    + destruct (t p a) as [[k d]|] eqn:Et; [contradiction|]. destruct (run _ _ _ _ _ l w) as [r w'] eqn:Er. cbn [fst]. f_equal. change r with (fst (r, w')). rewrite <- Er. apply IH; assumption.
  - (* Delete *)
    unfold do_call. assert (S0 := Sp p a). destruct (objs w p a) as [o|] eqn:Eo.
    + destruct (t p a) as [[k d]|] eqn:Et; [|contradiction]. destruct (delete_ok (disk w) p k d o (disk w) NL S0) as [NL' F].
      destruct (run _ _ _ _ _ l _) as [r w'] eqn:Er. cbn [fst]. f_equal. change r with (fst (r, w')). rewrite <- Er. apply IH; [|exact ND|].
      * apply agrees_set; try assumption; [reflexivity| |exact I]. intros b k0 d0 o0 Nb Hb. exfalso. apply Nb. apply (UN p); [rewrite Hb|rewrite Eo]; discriminate.
      * intros q0 Hq b. cbn [objs set_obj]. destruct (Nat.eqb q0 p && Nat.eqb b a)%bool; [reflexivity|]. apply FR. exact Hq.
    + destruct (t p a) as [[k d]|] eqn:Et; [contradiction|]. destruct (run _ _ _ _ _ l w) as [r w'] eqn:Er. cbn [fst]. f_equal. change r with (fst (r, w')). rewrite <- Er. apply IH; [|exact ND|exact FR].
      split; [exact NL|]. split; [|exact UN]. intros q0 b. unfold put. destruct (Nat.eqb_spec q0 p) as [->|]; cbn [andb]; [|apply Sp].
      destruct (Nat.eqb_spec b a) as [->|]; [rewrite Eo; exact I|apply Sp].
Qed.

(** * which files are left *)
Definition refers p o (f : file) : Prop := exists x i n, In x [o_vel o; o_traj o; o_rel o; o_mass o] /\ x = Some (Map (fname f p) i n).
Definition tidy p o s : Prop := forall f, dir s (fname f p) <> None -> refers p o f.
Lemma mapped_dir name n l s a s' : mapped zero name n l s = Some (a, s') -> (exists i, a = Map name i n) /\ forall m, m <> name -> dir s' m = dir s m.
Proof.
  unfold mapped, np_memmap, write_arr. destruct (dir s name) as [i|]; cbn; destruct (Nat.leb _ _); intros H; try discriminate; injection H as <- <-; (split; [eexists; reflexivity|]); intros m Hm; cbn.
  - reflexivity.
  - unfold set_dir. destruct (String.eqb_spec m name); [contradiction|reflexivity].
Qed.
Lemma more_refers p o o' f : (forall x : obj X -> option (arr X), In x [@o_vel X; @o_traj X; @o_rel X; @o_mass X] -> x o = None \/ x o' = x o) -> refers p o f -> refers p o' f.
Proof.
  intros M [x [i [n [H ->]]]]. 
  assert (K : exists g : obj X -> option (arr X), In g [@o_vel X; @o_traj X; @o_rel X; @o_mass X] /\ g o = Some (Map (fname f p) i n)).
  { cbn in H. destruct H as [H|[H|[H|[H|[]]]]]; [exists (@o_vel X)|exists (@o_traj X)|exists (@o_rel X)|exists (@o_mass X)]; (split; [cbn; tauto|exact H]). }
  destruct K as [g [Hg Eg]]. destruct (M g Hg) as [Z|Z]; [congruence|]. exists (g o'), i, n. split; [|congruence].
  cbn in Hg |- *. destruct Hg as [<-|[<-|[<-|[<-|[]]]]]; tauto.
Qed.
Ltac fields := cbn [In]; let H := fresh in intros ? H; destruct H as [<-|[<-|[<-|[<-|[]]]]]; cbn; auto.
Lemma traj_tidy p o s l o' s' : trajectory unscale o s = Some (l, o', s') -> tidy p o s -> tidy p o' s'.
Proof.
  unfold trajectory. destruct (o_traj o) eqn:Et; [|destruct (o_scaled o)]; try discriminate; destruct (read_arr _ _); try discriminate; cbn; intros H; injection H as <- <- <-; intros T f Hf.
  - exact (T f Hf).
  - apply (more_refers p o); [fields|exact (T f Hf)].
Qed.
Lemma rel_tidy p o s l o' s' : relative zero unscale displace p o s = Some (l, o', s') -> tidy p o s -> tidy p o' s'.
Proof.
  unfold relative. destruct (o_rel o) eqn:Er.
  - destruct (read_arr _ _); try discriminate. cbn. intros H; injection H as <- <- <-. intros T; exact T.
  - destruct (trajectory unscale o s) as [[[t o1] s1]|] eqn:E; [|discriminate]. destruct (mapped _ _ _ _ s1) as [[a s2]|] eqn:E2; [|discriminate]. destruct (read_arr s2 a); [|discriminate]. cbn.
    intros H; injection H as <- <- <-. intros T. assert (T1 := traj_tidy p o s t o1 s1 E T). destruct (mapped_dir _ _ _ _ _ _ E2) as [[i ->] D].
    assert (Er1 : o_rel o1 = None). { revert E. unfold trajectory. destruct (o_traj o); [|destruct (o_scaled o)]; try discriminate; destruct (read_arr _ _); try discriminate; cbn; intros H; injection H as _ <- _; exact Er. }
    intros f Hf. destruct (string_dec (fname f p) (fname FRelative p)) as [e|e].
    + apply fname_inj in e. destruct e as [-> _]. eexists. exists i. eexists. split; [|reflexivity]. cbn. auto.
    + rewrite (D _ e) in Hf. apply (more_refers p o1); [fields|exact (T1 f Hf)].
Qed.
Lemma rel_keeps p o s l o' s' : relative zero unscale displace p o s = Some (l, o', s') -> o_vel o' = o_vel o /\ o_mass o' = o_mass o.
Proof.
  unfold relative. destruct (o_rel o) eqn:Er.
  - destruct (read_arr _ _); try discriminate. cbn. intros H; injection H as _ <- _. auto.
  - destruct (trajectory unscale o s) as [[[t o1] s1]|] eqn:E; [|discriminate]. destruct (mapped _ _ _ _ s1) as [[a s2]|] eqn:E2; [|discriminate]. destruct (read_arr s2 a); [|discriminate]. cbn. intros H; injection H as _ <- _. cbn.
    revert E. unfold trajectory. destruct (o_traj o); [|destruct (o_scaled o)]; try discriminate; destruct (read_arr _ _); try discriminate; cbn; intros H; injection H as _ <- _; auto.
Qed.
Lemma vel_tidy p o s l o' s' : velocity zero unscale displace gradient p o s = Some (l, o', s') -> tidy p o s -> tidy p o' s'.
Proof.
  unfold velocity. destruct (o_vel o) eqn:Er.
  - destruct (read_arr _ _); try discriminate. cbn. intros H; injection H as <- <- <-. intros T; exact T.
  - destruct (relative zero unscale displace p o s) as [[[t o1] s1]|] eqn:E; [|discriminate]. destruct (mapped _ _ _ _ s1) as [[a s2]|] eqn:E2; [|discriminate]. destruct (read_arr s2 a); [|discriminate]. cbn.
    intros H; injection H as <- <- <-. intros T. assert (T1 := rel_tidy p o s t o1 s1 E T). destruct (mapped_dir _ _ _ _ _ _ E2) as [[i ->] D]. destruct (rel_keeps _ _ _ _ _ _ E) as [K1 K2]. rewrite Er in K1.
    intros f Hf. destruct (string_dec (fname f p) (fname FVelocity p)) as [e|e].
    + apply fname_inj in e. destruct e as [-> _]. eexists. exists i. eexists. split; [|reflexivity]. cbn. auto.
    + rewrite (D _ e) in Hf. apply (more_refers p o1); [fields|exact (T1 f Hf)].
Qed.
Lemma vel_keeps p o s l o' s' : velocity zero unscale displace gradient p o s = Some (l, o', s') -> o_mass o' = o_mass o.
Proof.
  unfold velocity. destruct (o_vel o) eqn:Er.
  - destruct (read_arr _ _); try discriminate. cbn. intros H; injection H as _ <- _. auto.
  - destruct (relative zero unscale displace p o s) as [[[t o1] s1]|] eqn:E; [|discriminate]. destruct (mapped _ _ _ _ s1) as [[a s2]|] eqn:E2; [|discriminate]. destruct (read_arr s2 a); [|discriminate]. cbn. intros H; injection H as _ <- _. cbn.
    exact (proj2 (rel_keeps _ _ _ _ _ _ E)).
Qed.
Lemma mass_tidy p o s l o' s' : velocity_mass zero unscale displace massweight gradient p o s = Some (l, o', s') -> tidy p o s -> tidy p o' s'.
Proof.
  unfold velocity_mass. destruct (o_mass o) eqn:Er.
  - destruct (read_arr _ _); try discriminate. cbn. intros H; injection H as <- <- <-. intros T; exact T.
  - destruct (velocity zero unscale displace gradient p o s) as [[[t o1] s1]|] eqn:E; [|discriminate]. destruct (mapped _ _ _ _ s1) as [[a s2]|] eqn:E2; [|discriminate]. destruct (read_arr s2 a); [|discriminate]. cbn.
    intros H; injection H as <- <- <-. intros T. assert (T1 := vel_tidy p o s t o1 s1 E T). destruct (mapped_dir _ _ _ _ _ _ E2) as [[i ->] D]. assert (K2 := vel_keeps _ _ _ _ _ _ E). rewrite Er in K2.
    intros f Hf. destruct (string_dec (fname f p) (fname FMass p)) as [e|e].
    + apply fname_inj in e. destruct e as [-> _]. eexists. exists i. eexists. split; [|reflexivity]. cbn. auto.
    + rewrite (D _ e) in Hf. apply (more_refers p o1); [fields|exact (T1 f Hf)].
Qed.
Lemma get_tidy p q o s l o' s' : getq p q o s = Some (l, o', s') -> tidy p o s -> tidy p o' s'.
Proof. destruct q; [apply traj_tidy|apply rel_tidy|apply vel_tidy|apply mass_tidy]. Qed.
Lemma load_tidy p k d s o' s' : k <> Scaled -> load zero p k d s = Some (o', s') -> (forall f, dir s (fname f p) = None) -> tidy p o' s'.
Proof.
  unfold load. intros Hk. destruct (mapped _ _ _ _ s) as [[a s2]|] eqn:E2; [|discriminate]. intros H; injection H as <- <-. intros Z f Hf. destruct (mapped_dir _ _ _ _ _ _ E2) as [[i ->] D].
  destruct (string_dec (fname f p) (fname FTrajectory p)) as [e|e]; [|exfalso; apply Hf; rewrite (D _ e); apply Z]. apply fname_inj in e. destruct e as [-> _].
  eexists. exists i. eexists. split; [|reflexivity]. destruct k; [cbn; auto|cbn; auto|contradiction].
Qed.
Definition names (l : list (option (arr X))) : list string := flat_map (fun x => match x with Some (Map n _ _) => [n] | _ => [] end) l.
Lemma delete_all l : forall s, NoDup (names l) -> (forall n, In n (names l) -> dir s n <> None) ->
  forall n, (In n (names l) -> dir (delete_files l s) n = None) /\ (~ In n (names l) -> dir (delete_files l s) n = dir s n).
Proof.
  induction l as [|x l IH]; intros s ND H n; [split; [intros []|reflexivity]|]. destruct x as [[m|m i c]|]; cbn [names flat_map app delete_files] in *; [exact (IH s ND H n)| |exact (IH s ND H n)].
  fold (names l) in *. inversion ND as [|? ? Nm ND']; subst. unfold os_remove. destruct (dir s m) as [j|] eqn:E; [|exfalso; exact (H m (or_introl eq_refl) E)].
  set (s1 := MkFs (set_dir (dir s) m None) (node s) (next s)).
  assert (H1 : forall n, In n (names l) -> dir s1 n <> None).
  { intros k Hk. cbn. unfold set_dir. destruct (String.eqb_spec k m) as [->|]; [contradiction|]. apply H. right. exact Hk. }
  destruct (IH s1 ND' H1 n) as [I1 I2]. destruct (string_dec n m) as [->|Ne].
  - split; [intros _|intros K; exfalso; apply K; left; reflexivity]. rewrite (I2 Nm). cbn. unfold set_dir. rewrite String.eqb_refl. reflexivity.
  - assert (S1 : dir s1 n = dir s n) by (cbn; unfold set_dir; destruct (String.eqb_spec n m); [contradiction|reflexivity]).
    split; [intros [K|K]; [exfalso; apply Ne; symmetry; exact K|exact (I1 K)]|]. intros K. rewrite (I2 (fun z => K (or_intror z))). exact S1.
Qed.
Lemma maybe_names s p f v x : maybe s p f v x -> (names [x] = [] \/ names [x] = [fname f p]) /\ forall n, In n (names [x]) -> dir s n <> None.
Proof. intros [->|[l [_ [i [-> [D N]]]]]]; cbn; [split; [left; reflexivity|intros n []]|]. split; [right; reflexivity|]. intros n [<-|[]]. rewrite D. discriminate. Qed.
Lemma is_map_names s p f v x : is_map s p f v x -> (names [x] = [fname f p]) /\ forall n, In n (names [x]) -> dir s n <> None.
Proof. intros [i [-> [D N]]]; cbn. split; [reflexivity|]. intros n [<-|[]]. rewrite D. discriminate. Qed.
Lemma names_cons x l : names (x :: l) = (names [x] ++ names l)%list.
Proof. unfold names. cbn. rewrite app_nil_r. reflexivity. Qed.
Ltac distinct := cbn [app]; repeat constructor; cbn [In]; intros HH; repeat (destruct HH as [HH|HH]); try contradiction; try (apply fname_inj in HH; destruct HH; discriminate).
Lemma own_names s p k d o : own s p k d o -> NoDup (names [o_vel o; o_traj o; o_rel o; o_mass o]) /\ forall n, In n (names [o_vel o; o_traj o; o_rel o; o_mass o]) -> dir s n <> None.
Proof.
  intros [A [B C]]. destruct (maybe_names _ _ _ _ _ B) as [B1 B2]. destruct (maybe_names _ _ _ _ _ C) as [C1 C2].
  rewrite (names_cons (o_vel o)), (names_cons (o_traj o)), (names_cons (o_rel o)).
  destruct k; destruct A as [A1 [A2 A3]].
  - destruct (is_map_names _ _ _ _ _ A2) as [T1 T2]. destruct (maybe_names _ _ _ _ _ A3) as [V1 V2]. split.
    + rewrite T1. destruct B1 as [-> | ->], C1 as [-> | ->], V1 as [-> | ->]; distinct.
    + intros n H. apply in_app_or in H. destruct H as [H|H]; [exact (V2 n H)|]. apply in_app_or in H. destruct H as [H|H]; [exact (T2 n H)|]. apply in_app_or in H. destruct H as [H|H]; [exact (B2 n H)|exact (C2 n H)].
  - destruct (is_map_names _ _ _ _ _ A3) as [V1 V2]. rewrite A2. split.
    + rewrite V1. destruct B1 as [-> | ->], C1 as [-> | ->]; distinct.
    + intros n H. apply in_app_or in H. destruct H as [H|H]; [exact (V2 n H)|]. cbn [names flat_map app] in H. apply in_app_or in H. destruct H as [H|H]; [exact (B2 n H)|exact (C2 n H)].
  - destruct (maybe_names _ _ _ _ _ A3) as [V1 V2]. assert (T1 : names [o_traj o] = []) by (destruct A2 as [-> | ->]; reflexivity). rewrite T1. split.
    + destruct B1 as [-> | ->], C1 as [-> | ->], V1 as [-> | ->]; distinct.
    + intros n H. apply in_app_or in H. destruct H as [H|H]; [exact (V2 n H)|]. cbn [app] in H. apply in_app_or in H. destruct H as [H|H]; [exact (B2 n H)|exact (C2 n H)].
Qed.
Lemma delete_tidy s p k d o : own s p k d o -> tidy p o s -> forall f, dir (delete o s) (fname f p) = None.
Proof.
  intros O T f. destruct (own_names _ _ _ _ _ O) as [ND HD]. destruct (delete_all _ s ND HD (fname f p)) as [D1 D2]. unfold delete.
  destruct (dir s (fname f p)) as [i|] eqn:E.
  - apply D1. assert (R : refers p o f) by (apply T; rewrite E; discriminate). destruct R as [x [j [n [H ->]]]]. unfold names. apply in_flat_map. eexists. split; [exact H|]. left. reflexivity.
  - destruct (in_dec string_dec (fname f p) (names [o_vel o; o_traj o; o_rel o; o_mass o])) as [I1|I1]; [exact (D1 I1)|]. exact (D2 I1).
Qed.
(** the files of process [p0]: all referred to by its object, none without an object *)
Definition tidy_world (p0 : nat) (w : world X) : Prop :=
  (forall a o, objs w p0 a = Some o -> tidy p0 o (disk w)) /\ ((forall a, objs w p0 a = None) -> forall f, dir (disk w) (fname f p0) = None).
Lemma frame_dir p0 p s s' f : p <> p0 -> frame (of_process p) s s' -> dir s' (fname f p0) = dir s (fname f p0).
Proof. intros N F. apply F. intros [g E]. apply N. symmetry. exact (proj2 (fname_inj _ _ _ _ E)). Qed.
Lemma tidy_other p0 p a w (o : option (obj X)) s : p <> p0 -> frame (of_process p) (disk w) s -> tidy_world p0 w -> tidy_world p0 (set_obj w p a o s).
Proof.
  intros N F [T1 T2]. assert (K : forall b, objs (set_obj w p a o s) p0 b = objs w p0 b) by (intros b; cbn; destruct (Nat.eqb_spec p0 p); [congruence|reflexivity]). split.
  - intros b o' H f Hf. rewrite K in H. cbn [disk set_obj] in Hf. rewrite (frame_dir p0 p _ _ f N F) in Hf. exact (T1 b o' H f Hf).
  - intros H f. cbn [disk set_obj]. rewrite (frame_dir p0 p _ _ f N F). apply T2. intros b. rewrite <- K. apply H.
Qed.
Lemma run_tidy p0 l : forall w t, agrees w t -> NoDup (readers l) -> (forall p, In p (readers l) -> forall a, objs w p a = None) ->
  (forall a d, ~ In (p0, a, Load Scaled d) l) -> tidy_world p0 w -> tidy_world p0 (snd (run zero unscale displace massweight gradient l w)).
Proof.
  induction l as [|[[p a] c] l IH]; intros w t AG ND FR NS TW; [exact TW|].
  assert (AG' := AG). destruct AG' as [NL [Sp UN]].
  assert (NS' : forall a d, ~ In (p0, a, Load Scaled d) l) by (intros b d H; apply (NS b d); right; exact H).
  cbn [run]. destruct c as [k d|q|].
  - cbn [readers flat_map snd fst app] in ND, FR. inversion ND as [|? ? Np ND']; subst. unfold do_call.
    destruct (load_good p k d (disk w) NL) as [o' [s' [E [O' [NL' F]]]]]. rewrite E. rewrite (FR p (or_introl eq_refl) a).
    destruct (run _ _ _ _ _ l (set_obj w p a (Some o') s')) as [r w'] eqn:Er. cbn [snd]. change w' with (snd (r, w')). rewrite <- Er. apply (IH _ (put t p a (Some (k, d)))); [|exact ND'| |exact NS'|].
    + apply agrees_set; try assumption.
      * intros b _ Hb. exfalso. apply Hb. exact (FR p (or_introl eq_refl) b).
      * intros b k0 d0 o0 _ Hb. rewrite (FR p (or_introl eq_refl) b) in Hb. discriminate.
    + intros q Hq b. cbn [objs set_obj]. destruct (Nat.eqb_spec q p) as [->|]; [contradiction|]. cbn [andb]. apply FR. right. exact Hq.
    + destruct (Nat.eq_dec p p0) as [->|Np0]; [|apply tidy_other; assumption]. split.
      * intros b o2 H. cbn [disk set_obj]. assert (Eo : o2 = o'). { cbn in H. rewrite Nat.eqb_refl in H. cbn in H. destruct (Nat.eqb b a); [congruence|]. rewrite (FR p0 (or_introl eq_refl) b) in H. discriminate. }
        subst o2. apply (load_tidy p0 k d (disk w) o' s'); [|exact E|].
        -- intros ->. apply (NS a d). left. reflexivity.
        -- apply (proj2 TW). apply FR. left. reflexivity.
      * intros H. specialize (H a). rewrite set_obj_same in H. discriminate.
  - unfold do_call. assert (S0 := Sp p a). destruct (objs w p a) as [o|] eqn:Eo.
    + destruct (t p a) as [[k d]|] eqn:Et; [|contradiction]. assert (G := get_good p k d o (disk w) q NL S0). unfold good in G. destruct (exp k d q) as [v|] eqn:Ev.
      * destruct G as [o' [s' [E [O' [NL' F]]]]]. rewrite E. destruct (run _ _ _ _ _ l _) as [r w'] eqn:Er. cbn [snd]. change w' with (snd (r, w')). rewrite <- Er.
        apply (IH _ (put t p a (Some (k, d)))); [|exact ND| |exact NS'|].
        -- apply agrees_set; try assumption.
           ++ intros b Nb Hb. exfalso. apply Nb. apply (UN p); [exact Hb|]. rewrite Eo. discriminate.
           ++ intros b k0 d0 o0 Nb Hb. exfalso. apply Nb. apply (UN p); [rewrite Hb|rewrite Eo]; discriminate.
        -- intros q0 Hq b. cbn [objs set_obj]. destruct (Nat.eqb_spec q0 p) as [->|]; cbn [andb]; [|apply FR; exact Hq]. exfalso. assert (Z := FR p Hq a). rewrite Eo in Z. discriminate.
        -- destruct (Nat.eq_dec p p0) as [->|Np0]; [|apply tidy_other; assumption]. split.
           ++ intros b o2 H. cbn [disk set_obj]. assert (Eo2 : o2 = o').
              { cbn in H. rewrite Nat.eqb_refl in H. cbn in H. destruct (Nat.eqb_spec b a) as [|Nb]; [congruence|]. exfalso. apply Nb. apply (UN p0); [rewrite H|rewrite Eo]; discriminate. }
              subst o2. exact (get_tidy p0 q o (disk w) v o' s' E (proj1 TW a o Eo)).
           ++ intros H. specialize (H a). rewrite set_obj_same in H. discriminate.
      * rewrite G. destruct (run _ _ _ _ _ l w) as [r w'] eqn:Er. cbn [snd]. change w' with (snd (r, w')). rewrite <- Er. apply (IH _ t); assumption.
    + destruct (run _ _ _ _ _ l w) as [r w'] eqn:Er. cbn [snd]. change w' with (snd (r, w')). rewrite <- Er. apply (IH _ t); assumption.
  - unfold do_call. assert (S0 := Sp p a). destruct (objs w p a) as [o|] eqn:Eo.
    + destruct (t p a) as [[k d]|] eqn:Et; [|contradiction]. destruct (delete_ok (disk w) p k d o (disk w) NL S0) as [NL' F].
      destruct (run _ _ _ _ _ l _) as [r w'] eqn:Er. cbn [snd]. change w' with (snd (r, w')). rewrite <- Er. apply (IH _ (put t p a None)); [|exact ND| |exact NS'|].
      * apply agrees_set; try assumption; [reflexivity| |exact I]. intros b k0 d0 o0 Nb Hb. exfalso. apply Nb. apply (UN p); [rewrite Hb|rewrite Eo]; discriminate.
      * intros q0 Hq b. cbn [objs set_obj]. destruct (Nat.eqb q0 p && Nat.eqb b a)%bool; [reflexivity|]. apply FR. exact Hq.
      * destruct (Nat.eq_dec p p0) as [->|Np0]; [|apply tidy_other; assumption]. split.
        -- intros b o2 H. exfalso. cbn in H. rewrite Nat.eqb_refl in H. cbn in H. destruct (Nat.eqb_spec b a) as [|Nb]; [discriminate|]. apply Nb. apply (UN p0); [rewrite H|rewrite Eo]; discriminate.
        -- intros _. cbn [disk set_obj]. exact (delete_tidy (disk w) p0 k d o S0 (proj1 TW a o Eo)).
    + destruct (run _ _ _ _ _ l w) as [r w'] eqn:Er. cbn [snd]. change w' with (snd (r, w')). rewrite <- Er. apply (IH _ t); assumption.
Qed.
Lemma agrees_start s : no_links s -> agrees (start s) (fun _ _ => None).
Proof. intros NL. split; [exact NL|]. split; [intros p a; exact I|]. intros p a b H. exfalso. apply H. reflexivity. Qed.
End Proofs.

(** * Theorems *)
(** When every process reads at most one trajectory, all getters of all the processes, in any interleaving, return what they would return with
    each trajectory in memory of its own. *)
Theorem C105_processes_partial (X : Type) (zero : X) (unscale displace massweight : X -> X) (gradient : list X -> list X) (s : files X) (l : list (nat * nat * call X)) :
  (forall f, List.length (gradient f) = List.length f) -> no_links s -> NoDup (readers l) ->
  fst (run zero unscale displace massweight gradient l (start s)) = in_memory unscale displace massweight gradient l (fun _ _ => None).
Proof. intros G NL ND. apply run_agrees; [exact G|apply agrees_start; exact NL|exact ND|intros p _ a; reflexivity]. Qed.

(** ... and a process that read positions or velocities and dropped its object leaves none of its four files behind. *)
Theorem C105_files_removed_partial (X : Type) (zero : X) (unscale displace massweight : X -> X) (gradient : list X -> list X) (s : files X) (l : list (nat * nat * call X)) (p : nat) :
  (forall f, List.length (gradient f) = List.length f) -> no_links s -> NoDup (readers l) ->
  (forall f, dir s (fname f p) = None) ->
  (forall a d, ~ In (p, a, Load Scaled d) l) ->
  let w := snd (run zero unscale displace massweight gradient l (start s)) in
  (forall a, objs w p a = None) -> forall f, dir (disk w) (fname f p) = None.
Proof.
  intros G NL ND Z NS w H. refine (proj2 (run_tidy zero unscale displace massweight gradient G p l (start s) (fun _ _ => None) _ ND _ NS _) H).
  - apply agrees_start. exact NL.
  - intros q _ a. reflexivity.
  - split; [intros a o E; discriminate E|]. intros _. exact Z.
Qed.

Section Refuted.
Context {X : Type} (zero : X) (unscale displace massweight : X -> X) (gradient : list X -> list X).
Definition empty_disk : files X := MkFs (fun _ => None) (fun _ => []) 0.
Lemma empty_no_links : no_links empty_disk.
Proof. split; cbn; intros; discriminate. Qed.
End Refuted.
Local Notation runs z u d m g l := (run z u d m g l (start empty_disk)).

(** Two trajectories of the same length in one process: the first one now shows the second one. *)
Theorem C105_two_trajectories_refuted (X : Type) (zero : X) (unscale displace massweight : X -> X) (gradient : list X -> list X) (p : nat) (d1 d2 : list X) :
  List.length d1 = List.length d2 -> d1 <> d2 ->
  let l := [(p, 0, Load Positions d1); (p, 1, Load Positions d2); (p, 0, Get QTrajectory)] in
  fst (runs zero unscale displace massweight gradient l) = [None; None; Some d2] /\
  in_memory unscale displace massweight gradient l (fun _ _ => None) = [None; None; Some d1].
Proof.
  intros L N. split; [|cbn [in_memory]; unfold put; rewrite !Nat.eqb_refl; reflexivity].
  destruct (mapped_ok zero (fname FTrajectory p) d1 empty_disk empty_no_links) as [i [s1 [E1 [D1 [N1 [NL1 F1]]]]]].
  destruct (mapped_ok zero (fname FTrajectory p) d2 s1 NL1) as [j [s2 [E2 [D2 [N2 [NL2 F2]]]]]].
  assert (Eij : j = i).
  { revert E2. unfold mapped, np_memmap. rewrite D1. cbn. destruct (Nat.leb _ _); [|discriminate]. intros H. congruence. }
  subst j. unfold start. cbn [run do_call disk objs]. unfold load. rewrite E1. cbn [set_obj disk objs]. rewrite E2. cbn [set_obj disk objs]. rewrite !Nat.eqb_refl. cbn [andb Nat.eqb].
  unfold TempFilesModel.get, trajectory. cbn [o_traj read_arr]. rewrite N2, L, Nat.leb_refl. rewrite <- L at 1. rewrite L, firstn_all. reflexivity.
Qed.

(** The second one shorter: reading the first one fails. *)
Theorem C105_shorter_refuted (X : Type) (zero : X) (unscale displace massweight : X -> X) (gradient : list X -> list X) (p : nat) (d1 d2 : list X) :
  List.length d2 < List.length d1 ->
  let l := [(p, 0, Load Positions d1); (p, 1, Load Positions d2); (p, 0, Get QTrajectory)] in
  fst (runs zero unscale displace massweight gradient l) = [None; None; None] /\
  in_memory unscale displace massweight gradient l (fun _ _ => None) = [None; None; Some d1].
Proof.
  intros L. split; [|cbn [in_memory]; unfold put; rewrite !Nat.eqb_refl; reflexivity].
  destruct (mapped_ok zero (fname FTrajectory p) d1 empty_disk empty_no_links) as [i [s1 [E1 [D1 [N1 [NL1 F1]]]]]].
  destruct (mapped_ok zero (fname FTrajectory p) d2 s1 NL1) as [j [s2 [E2 [D2 [N2 [NL2 F2]]]]]].
  assert (Eij : j = i).
  { revert E2. unfold mapped, np_memmap. rewrite D1. cbn. destruct (Nat.leb _ _); [|discriminate]. intros H. congruence. }
  subst j. unfold start. cbn [run do_call disk objs]. unfold load. rewrite E1. cbn [set_obj disk objs]. rewrite E2. cbn [set_obj disk objs]. rewrite !Nat.eqb_refl. cbn [andb Nat.eqb].
  unfold TempFilesModel.get, trajectory. cbn [o_traj read_arr]. rewrite N2. rewrite (proj2 (Nat.leb_gt _ _) L). reflexivity.
Qed.
(** The file of an XDATCAR trajectory is never removed. *)
Theorem C105_scaled_file_left_refuted (X : Type) (zero : X) (unscale displace massweight : X -> X) (gradient : list X -> list X) (p : nat) (d : list X) :
  let w := snd (runs zero unscale displace massweight gradient [(p, 0, Load Scaled d); (p, 0, Delete)]) in
  (forall a, objs w p a = None) /\ dir (disk w) (fname FTrajectory p) <> None.
Proof.
  destruct (mapped_ok zero (fname FTrajectory p) d empty_disk empty_no_links) as [i [s1 [E1 [D1 [N1 [NL1 F1]]]]]].
  unfold start. cbn [run do_call disk objs]. unfold load. rewrite E1. cbn [set_obj disk objs]. rewrite !Nat.eqb_refl. cbn [andb Nat.eqb delete delete_files o_vel o_traj o_rel o_mass snd set_obj objs disk].
  unfold set_obj. cbn [objs disk]. split; [|rewrite D1; discriminate]. intros a. rewrite Nat.eqb_refl. cbn [andb]. destruct (Nat.eqb a 0); reflexivity.
Qed.
(** Two objects in one process, the first one dropped, then the displacements of the second one used and it is dropped as well: the first deletion took
    the file of the second object, the second deletion stops there and leaves the file of the displacements. *)
Theorem C105_two_deletes_refuted (X : Type) (zero : X) (unscale displace massweight : X -> X) (gradient : list X -> list X) (p : nat) (d1 d2 : list X) :
  let w := snd (runs zero unscale displace massweight gradient [(p, 0, Load Positions d1); (p, 1, Load Positions d2); (p, 0, Delete); (p, 1, Get QRelative); (p, 1, Delete)]) in
  (forall a, objs w p a = None) /\ dir (disk w) (fname FRelative p) <> None.
Proof.
  destruct (mapped_ok zero (fname FTrajectory p) d1 empty_disk empty_no_links) as [i [s1 [E1 [D1 [N1 [NL1 F1]]]]]].
  destruct (mapped_ok zero (fname FTrajectory p) d2 s1 NL1) as [j [s2 [E2 [D2 [N2 [NL2 F2]]]]]].
  destruct (os_remove (fname FTrajectory p) s2) as [s3|] eqn:E3; [|unfold os_remove in E3; rewrite D2 in E3; discriminate].
  assert (D3 : dir s3 (fname FTrajectory p) = None) by (unfold os_remove in E3; rewrite D2 in E3; injection E3 as <-; cbn [dir]; unfold set_dir; rewrite String.eqb_refl; reflexivity).
  assert (N3 : node s3 j = d2) by (unfold os_remove in E3; rewrite D2 in E3; injection E3 as <-; exact N2).
  destruct (remove_ok _ _ _ NL2 E3) as [NL3 _].
  destruct (mapped_ok zero (fname FRelative p) (map displace d2) s3 NL3) as [k [s4 [E4 [D4 [N4 [NL4 F4]]]]]].
  assert (D4' : dir s4 (fname FTrajectory p) = None). { destruct (F4 (fname FTrajectory p)) as [Z _]; [intros H; apply fname_inj in H; destruct H; discriminate|]. rewrite Z. exact D3. }
  unfold start. cbn [run do_call disk objs]. unfold load. rewrite E1. cbn [set_obj disk objs]. rewrite E2. cbn [set_obj disk objs]. rewrite !Nat.eqb_refl. cbn [andb Nat.eqb].
  unfold delete. cbn [delete_files o_vel o_traj o_rel o_mass]. rewrite E3. unfold set_obj. cbn [disk objs]. rewrite !Nat.eqb_refl. cbn [andb Nat.eqb].
  unfold TempFilesModel.get, relative, trajectory. cbn [o_rel o_traj read_arr]. rewrite N3, Nat.leb_refl, firstn_all. cbn [option_map]. rewrite (map_length displace d2) in E4. rewrite E4. cbn [read_arr]. rewrite N4, map_length, Nat.leb_refl.
  cbn [option_map disk objs]. rewrite !Nat.eqb_refl. cbn [andb Nat.eqb delete_files o_vel o_traj o_rel o_mass]. unfold os_remove. rewrite D4'. cbn [snd disk objs]. split; [|rewrite D4; discriminate].
  intros a. rewrite Nat.eqb_refl. cbn [andb]. destruct (Nat.eqb_spec a 1) as [->|]; [reflexivity|]. destruct (Nat.eqb_spec a 0) as [->|]; reflexivity.
Qed.
Print Assumptions C105_processes_partial.
Print Assumptions C105_files_removed_partial.
Print Assumptions C105_two_trajectories_refuted.
Print Assumptions C105_shorter_refuted.
Print Assumptions C105_scaled_file_left_refuted.
Print Assumptions C105_two_deletes_refuted.

(** two processes, interleaved; a stale file of another process is on the disk *)
Example C105_nonvacuous :
  let s : files nat := MkFs (fun n => if String.eqb n (fname FTrajectory 12) then Some 0 else None) (fun i => match i with 0 => [9; 9; 9; 9] | _ => [] end) 1 in
  let l := [(12, 0, Load Positions [1; 2; 3]); (1, 0, Load Velocities [7; 8]); (12, 0, Get QMass); (1, 0, Get QMass); (1, 0, Get QTrajectory); (1, 0, Delete); (12, 0, Get QRelative); (12, 0, Delete)] in
  no_links s /\ NoDup (readers l) /\ in_memory S (fun x => x + 10) (fun x => 2 * x) (fun f => rev f) l (fun _ _ => None) =
    [None; None; Some [26; 24; 22]; Some [14; 16]; None; None; Some [11; 12; 13]; None] /\
  fst (run 0 S (fun x => x + 10) (fun x => 2 * x) (fun f => rev f) l (start s)) = [None; None; Some [26; 24; 22]; Some [14; 16]; None; None; Some [11; 12; 13]; None].
Proof.
  cbv zeta. split; [|split; [|split; [reflexivity|vm_compute; reflexivity]]].
  - split; cbn [dir next]; [intros a b i|intros a i]; destruct (String.eqb_spec a (fname FTrajectory 12)); try discriminate; [|intros H; injection H as <-; lia].
    destruct (String.eqb_spec b (fname FTrajectory 12)); [|discriminate]. intros _ _. congruence.
  - cbn. repeat constructor; cbn; intros H; repeat (destruct H as [H|H]); try discriminate; exact H.
Qed.
