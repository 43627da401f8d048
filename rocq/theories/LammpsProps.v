(** C129: what an in-memory LAMMPS run returns. *)
From Verif Require Import LammpsModel.
Open Scope nat_scope.

(** * Vocabulary *)
Section Words.
Context (A : arith) {S : Type} (advance : num A -> list (fix_ (num A)) -> S -> S) (atoms : S -> list (nat * (vec * vec))) (pe : S -> R).
(** the system after n MD steps of length h under the fixes fx *)
Fixpoint md (h : num A) (fx : list (fix_ (num A))) (n : nat) (s : S) : S :=
  match n with O => s | Datatypes.S n => advance h fx (md h fx n s) end.
(** LAMMPS lists its atoms 1, 2, 3, ... *)
Definition tidy (s : S) : Prop := map fst (atoms s) = seq 1 (List.length (atoms s)).
(** row c of the array shows the atom with the id given by the list *)
Definition shows (who : list nat) (value : vec * vec -> vec) (s : S) (rows : list vec) : Prop :=
  List.length rows = List.length who /\
  forall c id, nth_error who c = Some id -> exists a, In (id, a) (atoms s) /\ nth_error rows c = Some (value a).
(** the fixes that move atoms *)
Definition moves_atoms (f : fix_ (num A)) : bool := match fix_style f with Nvt _ _ _ => true | Other _ m => m end.
Definition at_rest (s : S) : Prop := forall i x v, In (i, (x, v)) (atoms s) -> v = V3 0 0 0.
(** the run starts from the replicated system [made]: as it is if anything moves in it, else with velocities created for the
    temperature asked for, or for 100 K if none is *)
Definition starts (create scale : num A -> S -> S) (asked : option (num A)) (made s : S) : Prop :=
  (at_rest made -> forall t, (asked = Some t \/ asked = None /\ t = of_int 100) -> s = scale t (create t made)) /\
  (~ at_rest made -> s = made).
End Words.
(** edges of a LAMMPS box (LAMMPS manual, "Triclinic simulation boxes"): a = (xhi-xlo, 0, 0), b = (xy, yhi-ylo, 0), c = (xz, yz, zhi-zlo) *)
Definition edges (b : lbox) : mat := (M3 (V3 (xhi b - xlo b) 0 0) (V3 (xy b) (yhi b - ylo b) 0) (V3 (xz b) (yz b) (zhi b - zlo b)))%R.

Section Facts.
Context (A : arith) {S : Type}.
Context (advance : num A -> list (fix_ (num A)) -> S -> S) (atoms : S -> list (nat * (vec * vec)))
        (pe : S -> R) (box : S -> lbox) (replicate : nat * nat * nat -> S -> S) (create scale : num A -> S -> S) (arrange : list vec -> list nat).
Notation gen := (generate A advance atoms pe box replicate create scale arrange).
Notation MD := (md A advance).

Lemma md_iter h fx n s : Nat.iter n (advance h fx) s = MD h fx n s.
Proof. induction n as [|n IH]; [reflexivity|]. cbn. rewrite <- IH. reflexivity. Qed.
Lemma md_add h fx a b s : MD h fx a (MD h fx b s) = MD h fx (a + b) s.
Proof. induction a as [|a IH]; [reflexivity|]. cbn. rewrite IH. reflexivity. Qed.

Lemma loop_spec n k idx : forall l r, loop A advance atoms pe n k idx l = Some r ->
  List.length r = n /\ (n <> 0 -> (0 <= k)%Z) /\
  forall i, i < n -> nth_error r i = Some (sample atoms pe idx (MD (dt l) (fixes l) ((i + 1) * Z.to_nat k) (sys l))).
Proof.
  induction n as [|n IH]; intros l r E.
  - injection E as <-. split; [reflexivity|]. split; [congruence|]. intros i H. lia.
  - cbn [loop] in E. unfold c_run in E. destruct (k <? 0)%Z eqn:K; [discriminate|]. cbn [obind] in E.
    apply Z.ltb_ge in K.
    match type of E with option_map _ ?x = _ => destruct x as [r'|] eqn:E' end; [|discriminate].
    injection E as <-. destruct (IH _ _ E') as (L & _ & H). cbn [sys fixes dt] in H.
    split; [cbn; f_equal; exact L|]. split; [intros _; exact K|]. intros [|i] Hi.
    + cbn [nth_error]. rewrite md_iter. f_equal. f_equal. f_equal. lia.
    + cbn [nth_error]. rewrite H by lia. rewrite md_iter, md_add. f_equal. f_equal. f_equal. lia.
Qed.

(** everything [generate] does, in one statement *)
Definition used_fixes (q : request (num A)) (l : @lmp A S) : option (list (fix_ (num A))) :=
  match temperature q with
  | None => Some (fixes l)
  | Some t => put_fix A (Fix "int"%string (Nvt t t (thermostat_mass q))) (fixes l)
  end.
Lemma generate_inv q l d : gen q l = Some d ->
  exists fx s relax loops, used_fixes q l = Some fx /\
  2 <= List.length (atoms (replicate (supercell q) (sys l))) /\
  s = sys (initial_velocities A atoms create scale q (Lmp (replicate (supercell q) (sys l)) fx (time_step q))) /\
  trunc (div (relaxation_time q) (time_step q)) = Some relax /\ (0 <= relax)%Z /\ sampling_interval q <> 0%Z /\
  trunc (div (div (total_time q) (time_step q)) (of_int (sampling_interval q))) = Some loops /\
  (Z.to_nat loops <> 0 -> (0 < sampling_interval q)%Z) /\
  md_cell d = simulation_cell (box s) /\
  md_time d = map (fun i => mul (mul (of_int i) (time_step q)) (of_int (sampling_interval q))) (zrange loops) /\
  List.length (md_energy d) = Z.to_nat loops /\ List.length (md_velocity d) = Z.to_nat loops /\
  (forall ps, md_positions d = Some ps -> List.length ps = Z.to_nat loops) /\
  (md_positions d = None <-> velocity_only q = true) /\
  forall i, i < Z.to_nat loops ->
    let now := MD (time_step q) fx (Z.to_nat relax + (i + 1) * Z.to_nat (sampling_interval q)) s in
    let idx := arrange (gather vzero (position_snapshot atoms s)) in
    nth_error (md_energy d) i = Some (pe now) /\ nth_error (md_velocity d) i = Some (frame vzero idx (velocity_snapshot atoms now)) /\
    (forall ps, md_positions d = Some ps -> nth_error ps i = Some (frame vzero idx (position_snapshot atoms now))).
Proof.
  intros E. unfold generate in E. cbn [c_timestep sys fixes dt] in E.
  assert (F : exists fx, used_fixes q l = Some fx /\ force_temperature A q (Lmp (replicate (supercell q) (sys l)) (fixes l) (time_step q)) = Some (Lmp (replicate (supercell q) (sys l)) fx (time_step q))).
  { destruct (force_temperature A q _) as [l'|] eqn:F; [|discriminate]. unfold force_temperature in F. unfold used_fixes. destruct (temperature q).
    - cbn [fixes sys dt] in F. destruct (put_fix _ _ _) as [fx|]; [|discriminate]. injection F as <-. exists fx. split; reflexivity.
    - injection F as <-. exists (fixes l). split; reflexivity. }
  destruct F as (fx & Fx & F). rewrite F in E. clear F. cbn [obind sys] in E.
  destruct (_ <? 2) eqn:N2 in E; [discriminate|]. apply Nat.ltb_ge in N2.
  set (l1 := initial_velocities A atoms create scale q _) in E.
  assert (D1 : dt l1 = time_step q) by (unfold l1, initial_velocities; destruct (any_velocity _ _); reflexivity).
  assert (F1 : fixes l1 = fx) by (unfold l1, initial_velocities; destruct (any_velocity _ _); reflexivity).
  unfold c_run at 1 in E. cbn [Z.ltb Z.compare obind Z.to_nat Nat.iter sys fixes dt] in E.
  destruct (trunc (div (relaxation_time q) _)) as [relax|] eqn:TR; [|discriminate]. cbn [obind] in E.
  unfold c_run at 1 in E. destruct (relax <? 0)%Z eqn:R0; [discriminate|]. apply Z.ltb_ge in R0. cbn [obind sys fixes dt] in E.
  destruct (sampling_interval q =? 0)%Z eqn:S0; [discriminate|]. apply Z.eqb_neq in S0.
  destruct (trunc (div (div _ _) _)) as [loops|] eqn:TL; [|discriminate]. cbn [obind] in E.
  match type of E with obind ?x _ = _ => destruct x as [r|] eqn:LP end; [|discriminate]. cbn [obind] in E. injection E as <-.
  destruct (loop_spec _ _ _ _ _ LP) as (LL & KP & H). cbn [sys fixes dt] in H.
  exists fx, (sys l1), relax, loops. cbn [md_cell md_time md_energy md_velocity md_positions].
  split; [exact Fx|]. split; [exact N2|]. split; [reflexivity|]. split; [reflexivity|]. split; [exact R0|]. split; [exact S0|].
  split; [reflexivity|]. split; [intros X; specialize (KP X); lia|]. split; [reflexivity|]. split; [reflexivity|].
  split; [rewrite map_length; exact LL|]. split; [rewrite map_length; exact LL|].
  split; [intros ps; destruct (velocity_only q); [discriminate|]; intros X; injection X as <-; rewrite map_length; exact LL|].
  split; [destruct (velocity_only q); split; congruence|].
  intros i Hi. specialize (H i Hi). cbn [Nat.iter nat_rect] in H. rewrite md_iter, md_add, D1, F1 in H.
  replace ((i + 1) * Z.to_nat (sampling_interval q) + Z.to_nat relax) with (Z.to_nat relax + (i + 1) * Z.to_nat (sampling_interval q)) in H by lia.
  rewrite !nth_error_map, H. cbn [option_map sample fst snd]. split; [reflexivity|]. split; [reflexivity|].
  intros ps. destruct (velocity_only q); [discriminate|]. intros X. injection X as <-. rewrite nth_error_map, H. reflexivity.
Qed.

Lemma nth_seq_ids (X : Type) (s : list (nat * X)) k : map fst s = seq 1 (List.length s) -> k < List.length s -> exists a, nth_error s k = Some (Datatypes.S k, a).
Proof.
  intros T K. destruct (nth_error s k) as [[i a]|] eqn:E; [|apply nth_error_None in E; lia]. exists a. f_equal. f_equal.
  assert (F : nth_error (map fst s) k = Some i) by (rewrite nth_error_map, E; reflexivity). rewrite T in F.
  apply (nth_error_nth _ _ 0) in F. rewrite seq_nth in F by exact K. lia.
Qed.
Lemma frame_shows value idx s : tidy atoms s -> (forall k, In k idx -> k < List.length (atoms s)) ->
  shows atoms (map Datatypes.S idx) value s (frame vzero idx (map (fun a => (fst a, value (snd a))) (atoms s))).
Proof.
  intros T I. split; [unfold frame; rewrite !map_length; reflexivity|]. intros c id E. rewrite nth_error_map in E.
  destruct (nth_error idx c) as [k|] eqn:Ec; [|discriminate]. injection E as <-.
  assert (K : k < List.length (atoms s)) by (apply I; eapply nth_error_In; exact Ec).
  destruct (nth_seq_ids _ _ _ T K) as [a Ea]. exists a. split; [eapply nth_error_In; exact Ea|].
  unfold frame. rewrite nth_error_map, Ec. cbn [option_map]. f_equal.
  unfold gather. apply nth_error_nth. rewrite !nth_error_map, Ea. cbn [option_map fst]. f_equal.
  replace (Datatypes.S k - 1) with k by lia. apply nth_error_nth. rewrite !nth_error_map, Ea. reflexivity.
Qed.

Lemma any_velocity_false s : any_velocity atoms s = false <-> at_rest atoms s.
Proof.
  unfold any_velocity, at_rest. split.
  - intros E i x v H. destruct v as [a b c]. assert (F : nonzero a || nonzero b || nonzero c = false).
    { destruct (nonzero a || nonzero b || nonzero c) eqn:F; [|reflexivity]. rewrite <- E. symmetry. apply existsb_exists. exists (i, (x, V3 a b c)). split; [exact H|exact F]. }
    unfold nonzero in F. destruct (Req_EM_T a 0), (Req_EM_T b 0), (Req_EM_T c 0); try discriminate F. subst. reflexivity.
  - intros H. destruct (existsb _ _) eqn:E; [|reflexivity]. apply existsb_exists in E. destruct E as ([i [x v]] & I & N). cbn [snd] in N.
    rewrite (H i x v I) in N. cbn [vx vy vz] in N. unfold nonzero in N. destruct (Req_EM_T 0 0) as [|Z]; [discriminate N|congruence].
Qed.
Lemma starts_ok q fx made : starts A atoms create scale (temperature q) made (sys (initial_velocities A atoms create scale q (Lmp made fx (time_step q)))).
Proof.
  unfold initial_velocities. cbn [sys]. split.
  - intros R t Ht. apply any_velocity_false in R. rewrite R. cbn [sys]. destruct Ht as [->|[-> ->]]; reflexivity.
  - intros R. destruct (any_velocity atoms made) eqn:Y; [reflexivity|]. exfalso. apply R, any_velocity_false, Y.
Qed.
Lemma gather_tidy (s : S) : tidy atoms s -> gather vzero (position_snapshot atoms s) = map (fun a => fst (snd a)) (atoms s).
Proof.
  intros T. apply (nth_ext _ _ vzero vzero).
  - unfold gather, position_snapshot. rewrite !map_length. reflexivity.
  - intros k K. unfold gather, position_snapshot in K. rewrite !map_length in K. destruct (nth_seq_ids _ _ _ T K) as [a Ea].
    transitivity (fst a); [|symmetry]; apply nth_error_nth.
    + unfold gather, position_snapshot. rewrite !nth_error_map, Ea. cbn [option_map fst]. f_equal. replace (Datatypes.S k - 1) with k by lia. apply nth_error_nth. rewrite !nth_error_map, Ea. reflexivity.
    + rewrite nth_error_map, Ea. reflexivity.
Qed.

(** ** Samples: energy, velocities and positions of one frame belong to the same instant, [relax + (k+1) * interval] steps after
    the start, and every column shows one and the same atom through the run, provided LAMMPS keeps its atoms in the order
    of their ids (otherwise C53). *)
Theorem C129_samples_partial : forall q l d, gen q l = Some d -> (forall s, tidy atoms s) ->
  (forall r, (forall k, In k (arrange r) -> k < List.length r)) -> (forall h fx s, List.length (atoms (advance h fx s)) = List.length (atoms s)) ->
  exists fx s relax who, starts A atoms create scale (temperature q) (replicate (supercell q) (sys l)) s /\ trunc (div (relaxation_time q) (time_step q)) = Some (Z.of_nat relax) /\
  who = map Datatypes.S (arrange (map (fun a => fst (snd a)) (atoms s))) /\
  List.length (md_energy d) = List.length (md_time d) /\ List.length (md_velocity d) = List.length (md_time d) /\
  (md_positions d = None <-> velocity_only q = true) /\
  (forall ps, md_positions d = Some ps -> List.length ps = List.length (md_time d)) /\
  forall k, k < List.length (md_time d) ->
    let now := MD (time_step q) fx (relax + (k + 1) * Z.to_nat (sampling_interval q)) s in
    nth_error (md_energy d) k = Some (pe now) /\
    (exists rows, nth_error (md_velocity d) k = Some rows /\ shows atoms who snd now rows) /\
    (forall ps, md_positions d = Some ps -> exists rows, nth_error ps k = Some rows /\ shows atoms who fst now rows).
Proof.
  intros q l d E T IA NA. destruct (generate_inv _ _ _ E) as (fx & s & relax & loops & Fx & N2 & Es & TR & R0 & S0 & TL & KP & C & Tm & LE & LV & LP & V & H).
  assert (LT : List.length (md_time d) = Z.to_nat loops) by (rewrite Tm; unfold zrange; rewrite !map_length; apply seq_length).
  assert (NM : forall h f n x, List.length (atoms (MD h f n x)) = List.length (atoms x)) by (intros h f n x; induction n as [|n IH]; [reflexivity|]; cbn; rewrite NA; exact IH).
  exists fx, s, (Z.to_nat relax), (map Datatypes.S (arrange (gather vzero (position_snapshot atoms s)))).
  rewrite Z2Nat.id by exact R0. split; [rewrite Es; apply starts_ok|]. split; [exact TR|]. split; [rewrite gather_tidy by apply T; reflexivity|]. rewrite LT. split; [exact LE|]. split; [exact LV|]. split; [exact V|]. split; [exact LP|].
  intros k Hk. destruct (H k Hk) as (H1 & H2 & H3). cbv zeta. split; [exact H1|].
  assert (I : forall j, In j (arrange (gather vzero (position_snapshot atoms s))) -> j < List.length (atoms (MD (time_step q) fx (Z.to_nat relax + (k + 1) * Z.to_nat (sampling_interval q)) s))).
  { intros j J. rewrite NM. apply IA in J. unfold gather, position_snapshot in J. rewrite !map_length in J. exact J. }
  split.
  - eexists. split; [exact H2|]. exact (frame_shows snd _ _ (T _) I).
  - intros ps P. eexists. split; [exact (H3 ps P)|]. exact (frame_shows fst _ _ (T _) I).
Qed.

(** ** The cell returned is the box at the start ... *)
Theorem C129_cell_partial : forall q l d, gen q l = Some d -> (forall h fx s, box (advance h fx s) = box s) ->
  exists fx s relax, starts A atoms create scale (temperature q) (replicate (supercell q) (sys l)) s /\ trunc (div (relaxation_time q) (time_step q)) = Some (Z.of_nat relax) /\ forall k, k < List.length (md_time d) ->
    md_cell d = edges (box (MD (time_step q) fx (relax + (k + 1) * Z.to_nat (sampling_interval q)) s)) /\
    nth_error (md_energy d) k = Some (pe (MD (time_step q) fx (relax + (k + 1) * Z.to_nat (sampling_interval q)) s)).
Proof.
  intros q l d E B. destruct (generate_inv _ _ _ E) as (fx & s & relax & loops & Fx & N2 & Es & TR & R0 & S0 & TL & KP & C & Tm & LE & LV & LP & V & H).
  assert (LT : List.length (md_time d) = Z.to_nat loops) by (rewrite Tm; unfold zrange; rewrite !map_length; apply seq_length).
  exists fx, s, (Z.to_nat relax). rewrite Z2Nat.id by exact R0. split; [rewrite Es; apply starts_ok|]. split; [exact TR|]. intros k Hk. rewrite LT in Hk. split; [|exact (proj1 (H k Hk))].
  rewrite C. assert (BM : forall n, box (MD (time_step q) fx n s) = box s) by (intros n; induction n as [|n IH]; [reflexivity|]; cbn; rewrite B; exact IH).
  rewrite BM. reflexivity.
Qed.
(** ... and so not the one of the samples when the box changes in the run (a barostat). *)
Theorem C129_cell_refuted : forall q l d, gen q l = Some d ->
  exists fx s relax, starts A atoms create scale (temperature q) (replicate (supercell q) (sys l)) s /\ trunc (div (relaxation_time q) (time_step q)) = Some (Z.of_nat relax) /\ md_cell d = edges (box s) /\
  forall k, k < List.length (md_time d) ->
    let now := MD (time_step q) fx (relax + (k + 1) * Z.to_nat (sampling_interval q)) s in
    nth_error (md_energy d) k = Some (pe now) /\ (edges (box now) <> edges (box s) -> md_cell d <> edges (box now)).
Proof.
  intros q l d E. destruct (generate_inv _ _ _ E) as (fx & s & relax & loops & Fx & N2 & Es & TR & R0 & S0 & TL & KP & C & Tm & LE & LV & LP & V & H).
  assert (LT : List.length (md_time d) = Z.to_nat loops) by (rewrite Tm; unfold zrange; rewrite !map_length; apply seq_length).
  exists fx, s, (Z.to_nat relax). rewrite Z2Nat.id by exact R0. split; [rewrite Es; apply starts_ok|]. split; [exact TR|]. split; [exact C|]. intros k Hk. rewrite LT in Hk. cbv zeta.
  split; [exact (proj1 (H k Hk))|]. intros X Y. apply X. rewrite <- Y. exact C.
Qed.

(** ** The temperature asked for *)
Lemma put_fix_spec f fs r : put_fix A f fs = Some r -> (forall g, In g fs -> fix_id g <> fix_id f -> In g r) /\ In f r /\
  (forall g, In g r -> g = f \/ In g fs) .
Proof.
  revert r. induction fs as [|g fs IH]; intros r E.
  - injection E as <-. split; [intros g []|]. split; [left; reflexivity|]. intros g [<-|[]]. left. reflexivity.
  - cbn [put_fix] in E. destruct (String.eqb_spec (fix_id g) (fix_id f)) as [Q|Q].
    + destruct (fix_style g); [|discriminate]. injection E as <-. split; [intros g' [<-|H] N; [congruence|right; exact H]|]. split; [left; reflexivity|].
      intros g' [<-|H]; [left; reflexivity|right; right; exact H].
    + destruct (put_fix A f fs) as [r'|]; [|discriminate]. injection E as <-. destruct (IH _ eq_refl) as (P1 & P2 & P3).
      split; [intros g' [<-|H] N; [left; reflexivity|right; apply P1; assumption]|]. split; [right; exact P2|].
      intros g' [<-|H]; [right; left; reflexivity|]. destruct (P3 _ H) as [->|P]; [left; reflexivity|right; right; exact P].
Qed.
Lemma put_fix_alone f fs r : put_fix A f fs = Some r -> moves_atoms A f = true -> NoDup (map fix_id fs) ->
  (forall g, In g fs -> moves_atoms A g = true -> fix_id g = fix_id f) -> filter (moves_atoms A) r = [f].
Proof.
  revert r. induction fs as [|g fs IH]; intros r E Mf ND I.
  - injection E as <-. cbn [filter]. rewrite Mf. reflexivity.
  - cbn [put_fix] in E. inversion ND as [|? ? N1 N2]; subst. destruct (String.eqb_spec (fix_id g) (fix_id f)) as [Q|Q].
    + destruct (fix_style g); [|discriminate]. injection E as <-. cbn [filter]. rewrite Mf. f_equal.
      assert (Z : forall x, In x fs -> moves_atoms A x = false).
      { intros x Hx. destruct (moves_atoms A x) eqn:Mx; [|reflexivity]. exfalso. apply N1. rewrite Q, <- (I x (or_intror Hx) Mx). apply in_map, Hx. }
      clear - Z. induction fs as [|x fs IH]; [reflexivity|]. cbn [filter]. rewrite (Z x (or_introl eq_refl)). apply IH. intros y Hy. apply Z. right. exact Hy.
    + destruct (put_fix A f fs) as [r'|]; [|discriminate]. injection E as <-. cbn [filter].
      destruct (moves_atoms A g) eqn:Mg; [exfalso; apply Q, I; [left; reflexivity|exact Mg]|].
      apply IH; [reflexivity|exact Mf|exact N2|]. intros x Hx Mx. apply I; [right; exact Hx|exact Mx].
Qed.
(** The run is driven by the thermostat at that temperature alone when the script itself moves atoms with no fix, or only with
    a thermostat of the name the program uses ... *)
Theorem C129_temperature_partial : forall q l d t, gen q l = Some d -> temperature q = Some t -> NoDup (map fix_id (fixes l)) ->
  (forall g, In g (fixes l) -> moves_atoms A g = true -> fix_id g = "int"%string) ->
  exists fx s relax, starts A atoms create scale (temperature q) (replicate (supercell q) (sys l)) s /\ trunc (div (relaxation_time q) (time_step q)) = Some (Z.of_nat relax) /\
  filter (moves_atoms A) fx = [Fix "int"%string (Nvt t t (thermostat_mass q))] /\
  forall k, k < List.length (md_time d) -> nth_error (md_energy d) k = Some (pe (MD (time_step q) fx (relax + (k + 1) * Z.to_nat (sampling_interval q)) s)).
Proof.
  intros q l d t E Et ND I. destruct (generate_inv _ _ _ E) as (fx & s & relax & loops & Fx & N2 & Es & TR & R0 & S0 & TL & KP & C & Tm & LE & LV & LP & V & H).
  assert (LT : List.length (md_time d) = Z.to_nat loops) by (rewrite Tm; unfold zrange; rewrite !map_length; apply seq_length).
  exists fx, s, (Z.to_nat relax). rewrite Z2Nat.id by exact R0. split; [rewrite Es; apply starts_ok|]. split; [exact TR|]. unfold used_fixes in Fx. rewrite Et in Fx.
  split; [eapply put_fix_alone; [exact Fx|reflexivity|exact ND|exact I]|]. intros k Hk. rewrite LT in Hk. exact (proj1 (H k Hk)).
Qed.
(** ... a fix of the script with any other name goes on moving the atoms next to it ... *)
Theorem C129_temperature_refuted : forall q l d t g, gen q l = Some d -> temperature q = Some t ->
  In g (fixes l) -> moves_atoms A g = true -> fix_id g <> "int"%string ->
  exists fx s relax, starts A atoms create scale (temperature q) (replicate (supercell q) (sys l)) s /\ trunc (div (relaxation_time q) (time_step q)) = Some (Z.of_nat relax) /\
  In g (filter (moves_atoms A) fx) /\ In (Fix "int"%string (Nvt t t (thermostat_mass q))) (filter (moves_atoms A) fx) /\
  forall k, k < List.length (md_time d) -> nth_error (md_energy d) k = Some (pe (MD (time_step q) fx (relax + (k + 1) * Z.to_nat (sampling_interval q)) s)).
Proof.
  intros q l d t g E Et G Mg Ng. destruct (generate_inv _ _ _ E) as (fx & s & relax & loops & Fx & N2 & Es & TR & R0 & S0 & TL & KP & C & Tm & LE & LV & LP & V & H).
  assert (LT : List.length (md_time d) = Z.to_nat loops) by (rewrite Tm; unfold zrange; rewrite !map_length; apply seq_length).
  exists fx, s, (Z.to_nat relax). rewrite Z2Nat.id by exact R0. split; [rewrite Es; apply starts_ok|]. split; [exact TR|]. unfold used_fixes in Fx. rewrite Et in Fx.
  destruct (put_fix_spec _ _ _ Fx) as (P1 & P2 & _). split; [apply filter_In; split; [apply P1; [exact G|exact Ng]|exact Mg]|].
  split; [apply filter_In; split; [exact P2|reflexivity]|]. intros k Hk. rewrite LT in Hk. exact (proj1 (H k Hk)).
Qed.
(** ... and a fix of that name of any other style is an error. *)
Theorem C129_other_style_refused : forall q l t g n m, temperature q = Some t -> In g (fixes l) -> NoDup (map fix_id (fixes l)) ->
  fix_id g = "int"%string -> fix_style g = Other n m -> gen q l = None.
Proof.
  intros q l t g n m Et G ND Ig Sg. destruct (gen q l) as [d|] eqn:E; [exfalso|reflexivity].
  destruct (generate_inv _ _ _ E) as (fx & s & relax & loops & Fx & _). unfold used_fixes in Fx. rewrite Et in Fx.
  assert (Q : forall f fs r, put_fix A f fs = Some r -> In g fs -> NoDup (map fix_id fs) -> fix_id g = fix_id f -> False).
  { intros f. induction fs as [|h fs IH]; intros r Hr Hin N Hid; [destruct Hin|]. destruct Hin as [->|Hg].
    - cbn [put_fix] in Hr. rewrite Hid, String.eqb_refl, Sg in Hr. discriminate.
    - cbn [put_fix] in Hr. inversion N as [|? ? N1 N2]; subst. destruct (String.eqb_spec (fix_id h) (fix_id f)) as [Y|Y].
      + apply N1. rewrite Y, <- Hid. apply in_map, Hg.
      + destruct (put_fix A f fs) as [r'|]; [|discriminate]. eapply IH; eauto. }
  eapply Q; [exact Fx|exact G|exact ND|exact Ig].
Qed.
(** Without a temperature the script's fixes are used as they are. *)
Theorem C129_no_temperature : forall q l d, gen q l = Some d -> temperature q = None ->
  exists s relax, starts A atoms create scale (temperature q) (replicate (supercell q) (sys l)) s /\ trunc (div (relaxation_time q) (time_step q)) = Some (Z.of_nat relax) /\
  forall k, k < List.length (md_time d) -> nth_error (md_energy d) k = Some (pe (MD (time_step q) (fixes l) (relax + (k + 1) * Z.to_nat (sampling_interval q)) s)).
Proof.
  intros q l d E Et. destruct (generate_inv _ _ _ E) as (fx & s & relax & loops & Fx & N2 & Es & TR & R0 & S0 & TL & KP & C & Tm & LE & LV & LP & V & H).
  assert (LT : List.length (md_time d) = Z.to_nat loops) by (rewrite Tm; unfold zrange; rewrite !map_length; apply seq_length).
  exists s, (Z.to_nat relax). rewrite Z2Nat.id by exact R0. split; [rewrite Es; apply starts_ok|]. split; [exact TR|]. unfold used_fixes in Fx. rewrite Et in Fx. injection Fx as <-.
  intros k Hk. rewrite LT in Hk. exact (proj1 (H k Hk)).
Qed.

(** ** Where the run starts: from the replicated system of the script.  If nothing moves there, velocities are created for the
    temperature asked for (100 K when none is); if anything moves, its velocities stay whatever temperature is asked for. *)
Theorem C129_start : forall q l d, gen q l = Some d ->
  let made := replicate (supercell q) (sys l) in
  exists fx s relax, trunc (div (relaxation_time q) (time_step q)) = Some (Z.of_nat relax) /\ 2 <= List.length (atoms made) /\
  (at_rest atoms made -> forall t, (temperature q = Some t \/ temperature q = None /\ t = of_int 100) -> s = scale t (create t made)) /\
  (~ at_rest atoms made -> s = made) /\
  forall k, k < List.length (md_time d) -> nth_error (md_energy d) k = Some (pe (MD (time_step q) fx (relax + (k + 1) * Z.to_nat (sampling_interval q)) s)).
Proof.
  intros q l d E made. destruct (generate_inv _ _ _ E) as (fx & s & relax & loops & Fx & N2 & Es & TR & R0 & S0 & TL & KP & C & Tm & LE & LV & LP & V & H).
  assert (LT : List.length (md_time d) = Z.to_nat loops) by (rewrite Tm; unfold zrange; rewrite !map_length; apply seq_length).
  exists fx, s, (Z.to_nat relax). rewrite Z2Nat.id by exact R0. split; [exact TR|]. split; [exact N2|].
  destruct (starts_ok q fx made) as [A1 A2]. unfold made in A1, A2. rewrite <- Es in A1, A2. split; [exact A1|]. split; [exact A2|].
  intros k Hk. rewrite LT in Hk. exact (proj1 (H k Hk)).
Qed.
Theorem C129_one_atom_refused : forall q l, List.length (atoms (replicate (supercell q) (sys l))) < 2 -> gen q l = None.
Proof.
  intros q l N. destruct (gen q l) as [d|] eqn:E; [exfalso|reflexivity]. destruct (generate_inv _ _ _ E) as (fx & s & relax & loops & _ & N2 & _). lia.
Qed.
(** A run succeeds whenever LAMMPS accepts the thermostat, there are two atoms and the numbers of steps make sense. *)
Theorem C129_succeeds_partial : forall q l relax loops,
  (temperature q = None \/ forall g, In g (fixes l) -> fix_id g <> "int"%string) ->
  2 <= List.length (atoms (replicate (supercell q) (sys l))) -> (0 < sampling_interval q)%Z ->
  trunc (div (relaxation_time q) (time_step q)) = Some relax -> (0 <= relax)%Z ->
  trunc (div (div (total_time q) (time_step q)) (of_int (sampling_interval q))) = Some loops ->
  exists d, gen q l = Some d /\ List.length (md_time d) = Z.to_nat loops.
Proof.
  intros q l relax loops F N K TR R0 TL. unfold generate. cbn [c_timestep sys fixes dt].
  assert (G : exists fx, force_temperature A q (Lmp (replicate (supercell q) (sys l)) (fixes l) (time_step q)) = Some (Lmp (replicate (supercell q) (sys l)) fx (time_step q))).
  { unfold force_temperature. destruct (temperature q) as [t|]; [|exists (fixes l); reflexivity]. cbn [fixes sys dt]. destruct F as [F|F]; [discriminate|].
    assert (P : exists r, put_fix A (Fix "int"%string (Nvt t t (thermostat_mass q))) (fixes l) = Some r).
    { revert F. generalize (fixes l). intros fs F. induction fs as [|g fs IH]; [exists [Fix "int"%string (Nvt t t (thermostat_mass q))]; reflexivity|].
      cbn [put_fix]. destruct (String.eqb_spec (fix_id g) (fix_id (Fix "int"%string (Nvt t t (thermostat_mass q))))) as [Q|Q].
      - exfalso. apply (F g (or_introl eq_refl)). exact Q.
      - destruct IH as [r ->]; [intros x Hx; apply F; right; exact Hx|]. eexists. reflexivity. }
    destruct P as [r ->]. exists r. reflexivity. }
  destruct G as [fx ->]. cbn [obind sys]. destruct (_ <? 2) eqn:N2; [apply Nat.ltb_lt in N2; lia|].
  unfold c_run at 1. cbn [Z.ltb Z.compare obind]. rewrite TR. cbn [obind]. unfold c_run at 1. destruct (relax <? 0)%Z eqn:Y; [apply Z.ltb_lt in Y; lia|]. cbn [obind].
  destruct (sampling_interval q =? 0)%Z eqn:Y0; [apply Z.eqb_eq in Y0; lia|]. rewrite TL. cbn [obind].
  assert (LP : forall n idx l0, exists r, loop A advance atoms pe n (sampling_interval q) idx l0 = Some r).
  { intros n idx. induction n as [|n IH]; intros l0; [exists []; reflexivity|]. cbn [loop]. unfold c_run. destruct (sampling_interval q <? 0)%Z eqn:Y1; [apply Z.ltb_lt in Y1; lia|].
    cbn [obind]. match goal with |- context [loop _ _ _ _ n _ _ ?x] => destruct (IH x) as [r ->] end. eexists. reflexivity. }
  match goal with |- context [loop _ _ _ _ ?n _ ?i ?x] => destruct (LP n i x) as [r ->] end. cbn [obind]. eexists. split; [reflexivity|].
  cbn [md_time]. unfold zrange. rewrite !map_length. apply seq_length.
Qed.
End Facts.

(** * Clock *)
Section Clock.
Context {S : Type}.
Context (advance : R -> list (fix_ R) -> S -> S) (atoms : S -> list (nat * (vec * vec)))
        (pe : S -> R) (box : S -> lbox) (replicate : nat * nat * nat -> S -> S) (create scale : R -> S -> S) (arrange : list vec -> list nat).
Notation gen := (generate exact advance atoms pe box replicate create scale arrange).
Open Scope R_scope.
Lemma trunc_pos x z : 0 <= x -> @trunc exact x = Some z -> (0 <= z)%Z /\ IZR z <= x < IZR z + 1.
Proof.
  cbn [trunc exact]. intros X E. destruct (Rle_dec 0 x); [|lra]. injection E as <-. assert (F := rfloor_bounds x).
  split; [rewrite <- (rfloor_IZR 0); apply rfloor_mono; exact X|lra].
Qed.
(** In exact arithmetic: the relaxation lasts the time asked for, to within one step, and the samples cover the total time, to
    within one interval.  [steps] is the number of MD steps taken since the start when frame k is read out: stamps differ by the
    MD time that passed between the samples ... *)
Theorem C129_clock_partial : forall (q : request R) l d, gen q l = Some d -> 0 < time_step q -> 0 <= relaxation_time q -> 0 <= total_time q -> (0 < sampling_interval q)%Z ->
  let pause := time_step q * IZR (sampling_interval q) in
  exists fx s (relax : nat), starts exact atoms create scale (temperature q) (replicate (supercell q) (sys l)) s /\ INR relax * time_step q <= relaxation_time q < INR relax * time_step q + time_step q /\
  total_time q - pause < INR (List.length (md_time d)) * pause <= total_time q /\
  forall k, (k < List.length (md_time d))%nat ->
    exists steps stamp, nth_error (md_energy d) k = Some (pe (md exact advance (time_step q) fx steps s)) /\ nth_error (md_time d) k = Some stamp /\
    stamp = INR k * pause /\ INR steps * time_step q = INR relax * time_step q + stamp + pause.
Proof.
  intros q l d E Hd Hr Ht Hs pause. destruct (generate_inv _ _ _ _ _ _ _ _ _ _ _ _ E) as (fx & s & relax & loops & Fx & N2 & Es & TR & R0 & S0 & TL & KP & C & Tm & LE & LV & LP & V & H).
  assert (I0 : 0 < / time_step q) by (apply Rinv_0_lt_compat, Hd).
  assert (HS : 0 < IZR (sampling_interval q)) by (apply IZR_lt, Hs).
  assert (DR : 0 <= relaxation_time q / time_step q) by (apply Rmult_le_pos; [exact Hr|lra]).
  destruct (trunc_pos _ _ DR TR) as (_ & TR1).
  assert (DL : 0 <= total_time q / time_step q / IZR (sampling_interval q)) by (apply Rmult_le_pos; [apply Rmult_le_pos; [exact Ht|lra]|left; apply Rinv_0_lt_compat, HS]).
  destruct (trunc_pos _ _ DL TL) as (L0 & TL1).
  assert (LT : List.length (md_time d) = Z.to_nat loops) by (rewrite Tm; unfold zrange; rewrite !map_length; apply seq_length).
  set (a := relaxation_time q / time_step q) in *. assert (Ea : relaxation_time q = a * time_step q) by (unfold a; field; lra).
  set (b := total_time q / time_step q / IZR (sampling_interval q)) in *. assert (Eb : total_time q = b * pause) by (unfold b, pause; field; lra).
  assert (PP : 0 < pause) by (unfold pause; nra).
  assert (Er : INR (Z.to_nat relax) = IZR relax) by (rewrite INR_IZR_INZ, Z2Nat.id by exact R0; reflexivity).
  assert (El : INR (Z.to_nat loops) = IZR loops) by (rewrite INR_IZR_INZ, Z2Nat.id by exact L0; reflexivity).
  exists fx, s, (Z.to_nat relax). split; [rewrite Es; apply starts_ok|]. split; [rewrite Er, Ea; nra|]. split; [rewrite LT, El, Eb; nra|].
  intros k Hk. rewrite LT in Hk. exists (Z.to_nat relax + (k + 1) * Z.to_nat (sampling_interval q))%nat, (INR k * pause).
  split; [exact (proj1 (H k Hk))|]. split.
  - rewrite Tm. unfold zrange. rewrite map_map, nth_error_map, (nth_error_nth' _ 0%nat) by (rewrite seq_length; exact Hk).
    rewrite seq_nth by exact Hk. cbn [option_map Nat.add].
    change (Some (IZR (Z.of_nat k) * time_step q * IZR (sampling_interval q)) = Some (INR k * pause)). unfold pause. rewrite <- INR_IZR_INZ. f_equal. ring.
  - split; [reflexivity|]. rewrite plus_INR, mult_INR, plus_INR. cbn [INR]. unfold pause.
    assert (EK : INR (Z.to_nat (sampling_interval q)) = IZR (sampling_interval q)) by (rewrite INR_IZR_INZ, Z2Nat.id by lia; reflexivity). rewrite EK. ring.
Qed.
(** ... but they are not the time since the end of the relaxation: every stamp is one interval early, whatever the run; and they
    are not in ps when LAMMPS' unit of time is not 1 ps ([unit], in ps). *)
Theorem C129_clock_refuted : forall (q : request R) l d unit, gen q l = Some d -> 0 < time_step q -> 0 <= relaxation_time q -> 0 <= total_time q -> (0 < sampling_interval q)%Z -> 0 < unit ->
  exists fx s (relax : nat), starts exact atoms create scale (temperature q) (replicate (supercell q) (sys l)) s /\ INR relax * time_step q <= relaxation_time q < INR relax * time_step q + time_step q /\
  forall k, (k < List.length (md_time d))%nat ->
    exists steps stamp, nth_error (md_energy d) k = Some (pe (md exact advance (time_step q) fx steps s)) /\ nth_error (md_time d) k = Some stamp /\
    stamp <> (INR steps - INR relax) * time_step q /\
    (unit <> 1 -> (0 < k)%nat -> forall steps0, nth_error (md_energy d) 0 = Some (pe (md exact advance (time_step q) fx steps0 s)) ->
       INR steps0 = INR relax + IZR (sampling_interval q) -> stamp <> (INR steps - INR steps0) * time_step q * unit).
Proof.
  intros q l d unit E Hd Hr Ht Hs Hu. destruct (C129_clock_partial q l d E Hd Hr Ht Hs) as (fx & s & relax & St & Rx & _ & H).
  assert (HS : 0 < IZR (sampling_interval q)) by (apply IZR_lt, Hs). assert (PP : 0 < time_step q * IZR (sampling_interval q)) by nra.
  exists fx, s, relax. split; [exact St|]. split; [exact Rx|]. intros k Hk. destruct (H k Hk) as (steps & stamp & H1 & H2 & H3 & H4). exists steps, stamp.
  split; [exact H1|]. split; [exact H2|]. split; [intros X; nra|]. intros U K steps0 _ E0 X. rewrite E0 in X.
  replace ((INR steps - (INR relax + IZR (sampling_interval q))) * time_step q) with stamp in X by nra.
  assert (KP : 0 < INR k) by (apply lt_0_INR, K). assert (SP : 0 < stamp) by (rewrite H3; nra). apply U. nra.
Qed.
End Clock.

(** * Rounding: in binary64, three steps of 0.1 ps are two *)
Definition lit (a b : Z) : num binary64 := div (of_int a) (of_int b).
Section Rounded.
Context {S : Type}.
Context (advance : num binary64 -> list (fix_ (num binary64)) -> S -> S) (atoms : S -> list (nat * (vec * vec)))
        (pe : S -> R) (box : S -> lbox) (replicate : nat * nat * nat -> S -> S) (create scale : num binary64 -> S -> S) (arrange : list vec -> list nat).
Notation gen := (generate binary64 advance atoms pe box replicate create scale arrange).
Theorem C129_rounding_refuted : forall c vo mass l, (2 <= List.length (atoms (replicate c (sys l))))%nat ->
  exists d s, gen (Request (lit 3 10) (lit 1 10) (lit 3 10) c vo None mass 1%Z) l = Some d /\ List.length (md_time d) = 2%nat /\ starts binary64 atoms create scale None (replicate c (sys l)) s /\
  nth_error (md_energy d) 0 = Some (pe (md binary64 advance (lit 1 10) (fixes l) 3 s)).
Proof.
  intros c vo mass l N. set (q := Request (lit 3 10) (lit 1 10) (lit 3 10) c vo None mass 1%Z).
  assert (T1 : @trunc binary64 (div (lit 3 10) (lit 1 10)) = Some 2%Z) by (vm_compute; reflexivity).
  assert (T2 : @trunc binary64 (div (div (lit 3 10) (lit 1 10)) (of_int 1)) = Some 2%Z) by (vm_compute; reflexivity).
  destruct (C129_succeeds_partial binary64 advance atoms pe box replicate create scale arrange q l 2 2 (or_introl eq_refl) N ltac:(reflexivity) T1 ltac:(lia) T2) as (d & E & L).
  destruct (C129_no_temperature binary64 advance atoms pe box replicate create scale arrange q l d E eq_refl) as (s & relax & St & TR & H).
  exists d, s. split; [exact E|]. split; [exact L|]. split; [exact St|]. change (trunc _) with (@trunc binary64 (div (lit 3 10) (lit 1 10))) in TR. rewrite T1 in TR.
  assert (relax = 2%nat) by (injection TR as TR; lia). subst relax. apply (H 0%nat). rewrite L. cbn. lia.
Qed.
End Rounded.

Print Assumptions C129_samples_partial. Print Assumptions C129_cell_partial. Print Assumptions C129_cell_refuted.
Print Assumptions C129_temperature_partial. Print Assumptions C129_temperature_refuted. Print Assumptions C129_other_style_refused.
Print Assumptions C129_no_temperature. Print Assumptions C129_start. Print Assumptions C129_one_atom_refused.
Print Assumptions C129_succeeds_partial. Print Assumptions C129_clock_partial. Print Assumptions C129_clock_refuted. Print Assumptions C129_rounding_refuted.

(** A system of two atoms drifting apart, in a box that grows; the script runs at constant energy under the name 1. *)
Definition toy_atoms (n : nat) : list (nat * (vec * vec)) := [(1%nat, (V3 0 0 0, V3 0 0 0)); (2%nat, (V3 (INR n) 0 0, V3 1 0 0))].
Definition toy_box (n : nat) : lbox := Box 0 (10 + INR n) 0 10 0 10 0 0 0.
Definition toy_request : request R := Request 2%R 1%R 3%R (1, 1, 1)%nat false (Some 300%R) (1 / 2)%R 1%Z.
Definition toy_script : @lmp exact nat := @Lmp exact nat 0%nat [Fix "1"%string (Other "nve"%string true)] (1 / 1000)%R.
Example C129_nonvacuous : exists d, generate exact (fun _ _ n => Datatypes.S n) toy_atoms INR toy_box (fun _ n => n) (fun _ n => n) (fun _ n => n) (fun r => seq 0 (List.length r)) toy_request toy_script = Some d /\
  List.length (md_time d) = 2%nat /\ (forall s, tidy toy_atoms s) /\ edges (toy_box 4) <> edges (toy_box 0).
Proof.
  destruct (C129_succeeds_partial exact (fun _ _ n => Datatypes.S n) toy_atoms INR toy_box (fun _ n => n) (fun _ n => n) (fun _ n => n) (fun r => seq 0 (List.length r)) toy_request toy_script 3 2) as (d & E & L).
  - right. intros g [<-|[]]. discriminate.
  - cbn. lia.
  - reflexivity.
  - cbn [trunc exact div relaxation_time time_step toy_request]. replace (3 / 1)%R with (IZR 3) by lra. rewrite rfloor_IZR. destruct (Rle_dec 0 3); [reflexivity|lra].
  - lia.
  - cbn [trunc exact div total_time time_step toy_request of_int sampling_interval]. replace (2 / 1 / 1)%R with (IZR 2) by lra. rewrite rfloor_IZR. destruct (Rle_dec 0 2); [reflexivity|lra].
  - exists d. split; [exact E|]. split; [exact L|]. split; [intros s; reflexivity|]. intros X. injection X as X. cbn in X. lra.
Qed.
