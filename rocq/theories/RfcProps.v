(** C85: force constants recalculated from a frequency file.  C86: the quasiparticle data file. *)
From Verif Require Import Base Rounding RfcModel.
From Coq Require Import Lia Lra.
Import List ListNotations.
Open Scope R_scope.

(** * specification *)
(** the file gives the frequencies f for the wave vector w *)
Definition gives (m : list (string * entry)) (w : vec) (f : list R) : Prop := exists k e, In (k, e) m /\ wave_vector e = w /\ frequencies e = f.
(** the file has exactly one entry for the wave vector w *)
Definition once (m : list (string * entry)) (w : vec) : Prop :=
  exists before k e after, m = before ++ (k, e) :: after /\ wave_vector e = w /\ forall k' e', In (k', e') (before ++ after) -> wave_vector e' <> w.

Lemma vec_eqb_eq a b : vec_eqb a b = true <-> a = b.
Proof.
  unfold vec_eqb. destruct a as [a1 a2 a3], b as [b1 b2 b3]. cbn. destruct (Req_EM_T a1 b1) as [->|N]; [|split; [discriminate|congruence]].
  destruct (Req_EM_T a2 b2) as [->|N]; [|split; [discriminate|congruence]]. destruct (Req_EM_T a3 b3) as [->|N]; [|split; [discriminate|congruence]]. split; reflexivity.
Qed.
Lemma vec_eqb_neq a b : a <> b -> vec_eqb a b = false.
Proof. intros H. destruct (vec_eqb a b) eqn:E; [|reflexivity]. apply vec_eqb_eq in E. contradiction. Qed.
Definition matching (m : list (string * entry)) (w : vec) : list (list R) := map (fun kv => frequencies (snd kv)) (filter (fun kv => vec_eqb (wave_vector (snd kv)) w) m).
Lemma matching_app m m' w : matching (m ++ m') w = matching m w ++ matching m' w.
Proof. unfold matching. induction m as [|x m IH]; cbn; [reflexivity|]. destruct (vec_eqb _ w); cbn; rewrite IH; reflexivity. Qed.
Lemma matching_none m w : (forall k e, In (k, e) m -> wave_vector e <> w) -> matching m w = [].
Proof.
  unfold matching. induction m as [|[k e] m IH]; intros H; cbn; [reflexivity|]. rewrite (vec_eqb_neq _ _ (H k e (or_introl eq_refl))). apply IH. intros k' e' Hin. apply (H k'). right. exact Hin.
Qed.
Lemma matching_once m w : once m w -> exists f, matching m w = [f] /\ gives m w f.
Proof.
  intros (b & k & e & a & -> & E & N). exists (frequencies e). split.
  - rewrite matching_app, (matching_none b), app_nil_l by (intros; eapply N; apply in_or_app; left; eassumption).
    change ((k, e) :: a) with ([(k, e)] ++ a). rewrite matching_app, (matching_none a), app_nil_r by (intros; eapply N; apply in_or_app; right; eassumption).
    unfold matching. cbn. rewrite (proj2 (vec_eqb_eq _ _) E). reflexivity.
  - exists k, e. split; [apply in_elt|auto].
Qed.
Lemma matching_all m pts : (forall w, In w pts -> once m w) ->
  length (concat (map (matching m) pts)) = length pts /\
  forall i w, nth_error pts i = Some w -> exists f, nth_error (concat (map (matching m) pts)) i = Some f /\ gives m w f.
Proof.
  induction pts as [|w pts IH]; intros H; cbn.
  - split; [reflexivity|]. intros [|i] w E; discriminate.
  - destruct (matching_once m w (H w (or_introl eq_refl))) as [f [E G]]. rewrite E. cbn. destruct (IH (fun w' Hw => H w' (or_intror Hw))) as [L N]. split; [rewrite L; reflexivity|].
    intros [|i] w' Hi; cbn in *; [injection Hi as <-; exists f; auto|apply N, Hi].
Qed.

(** C85.  A mapping file with exactly one entry per commensurate point (in any order, with any other points): the force constants are
    rebuilt from, for every point, the frequencies the file gives for it and its own eigenvectors. *)
Theorem C85_pairs_partial :
  forall (E FC : Type) points (eigenvectors : vec -> E) (rebuild : list (list R) -> list E -> mat -> bool -> FC)
    (m : list (string * entry)) (supercell own : mat) (symmetrize : bool),
  (forall w, In w (points supercell) -> once m w) ->
  exists fs evs, get_renormalized_constants points eigenvectors rebuild None (Some supercell) own (YMap m) symmetrize = Some (rebuild fs evs supercell symmetrize) /\
  length fs = length (points supercell) /\ length evs = length (points supercell) /\
  forall i w, nth_error (points supercell) i = Some w -> nth_error evs i = Some (eigenvectors w) /\ exists f, nth_error fs i = Some f /\ gives m w f.
Proof.
  intros E FC points ev rb m c own s H. destruct (matching_all m (points c) H) as [L N].
  exists (concat (map (matching m) (points c))), (map ev (points c)). split; [reflexivity|]. split; [exact L|]. split; [apply map_length|].
  intros i w Hi. split; [apply map_nth_error, Hi|apply N, Hi].
Qed.
Print Assumptions C85_pairs_partial.
(** The files this program writes itself are never accepted: whatever the data, the options and the supercell. *)
Theorem C85_own_file_refuted :
  forall (E FC : Type) points' (eigenvectors : vec -> E) (rebuild : list (list R) -> list E -> mat -> bool -> FC) dim input own symmetrize
    points compute velocity with_extra o file o',
  write_data points compute velocity with_extra o = (Some file, o') ->
  get_renormalized_constants points' eigenvectors rebuild dim input own file symmetrize = None.
Proof.
  intros E FC points' ev rb dim input own s points compute velocity x o file o' H.
  assert (L : exists l, file = YList l).
  { unfold write_data in H. destruct (get_data compute o) as [d o1]. destruct x; cbn in H; injection H as H _; unfold save_quasiparticle_data in H; cbn [d_q] in H.
    - destruct (entries_from _ 0 _) as [l|]; [|discriminate]. injection H as <-. eexists. reflexivity.
    - destruct (entries_from _ 0 _) as [l|]; [|discriminate]. injection H as <-. eexists. reflexivity. }
  destruct L as [l ->]. unfold get_renormalized_constants. destruct (rfc_supercell dim input own); reflexivity.
Qed.
Print Assumptions C85_own_file_refuted.
(** A point that is missing in the file is not reported: the frequencies of each later point are given the eigenvectors of the point before. *)
Theorem C85_missing_refuted :
  forall (m : list (string * entry)) (before after : list vec) (w : vec),
  (forall k e, In (k, e) m -> wave_vector e <> w) -> (forall w', In w' (before ++ after) -> once m w') ->
  exists fs, read_frequencies (YMap m) (before ++ w :: after) = Some fs /\
  forall j w', nth_error after j = Some w' -> exists f, nth_error fs (length before + j) = Some f /\ gives m w' f.
Proof.
  intros m b a w Hw Ho. destruct (matching_all m b) as [Lb Nb]; [intros; apply Ho, in_or_app; auto|]. destruct (matching_all m a) as [La Na]; [intros; apply Ho, in_or_app; auto|].
  exists (concat (map (matching m) b) ++ concat (map (matching m) a)). split.
  - unfold read_frequencies. fold (matching m). f_equal. change (concat (map (matching m) (b ++ w :: a)) = concat (map (matching m) b) ++ concat (map (matching m) a)).
    rewrite map_app, concat_app. cbn [map concat]. rewrite (matching_none m w Hw). reflexivity.
  - intros j w' Hj. rewrite nth_error_app2 by lia. rewrite Lb. replace (length b + j - length b)%nat with j by lia. apply Na, Hj.
Qed.
Print Assumptions C85_missing_refuted.
Lemma dec8_idem x : dec8 (dec8 x) = dec8 x.
Proof. unfold dec8 at 1. replace (dec8 x * 100000000) with (IZR (around (x * 100000000))) by (unfold dec8; field). rewrite around_IZR. reflexivity. Qed.
Lemma dec8v_idem v : dec8v (dec8v v) = dec8v v.
Proof. unfold dec8v. cbn. rewrite !dec8_idem. reflexivity. Qed.
(** Wave vectors written with eight decimals are never found again when they need more. *)
Theorem C85_rounded_refuted :
  forall (names : list string) (entries : list entry) (w : vec), dec8v w <> w ->
  read_frequencies (YMap (combine names (map written entries))) [w] = Some [].
Proof.
  intros names entries w Hw. unfold read_frequencies. cbn [map concat]. rewrite app_nil_r. f_equal. apply (matching_none (combine names (map written entries)) w).
  intros k e Hin. apply in_combine_r in Hin. apply in_map_iff in Hin as [x [<- Hx]]. cbn. intros E. apply Hw. rewrite <- E. apply dec8v_idem.
Qed.
Print Assumptions C85_rounded_refuted.
(** --dim: the points printed with -cp are those of the given supercell, but the force constants are always computed for the structure's own *)
Theorem C85_dim_ignored_refuted :
  forall (E FC : Type) points (eigenvectors : vec -> E) (rebuild : list (list R) -> list E -> mat -> bool -> FC) (m : list (string * entry)) a b c input own symmetrize,
  let d := (a, b, c) in
  print_points points (Some d) input = points (M3 (V3 (INR a) 0 0) (V3 0 (INR b) 0) (V3 0 0 (INR c))) /\
  exists fs, get_renormalized_constants points eigenvectors rebuild (Some d) input own (YMap m) symmetrize = Some (rebuild fs (map eigenvectors (points own)) own symmetrize).
Proof. intros. split; [reflexivity|]. eexists. reflexivity. Qed.
Print Assumptions C85_dim_ignored_refuted.
(** without --dim the points printed are those of the supercell of the input file, or of the unit cell if there is none *)
Theorem C85_points_printed : forall points (input : option mat),
  print_points points None input = match input with Some m => points m | None => points mid end.
Proof. intros points [m|]; [reflexivity|]. unfold print_points, diag3. simpl. reflexivity. Qed.
Print Assumptions C85_points_printed.
Example C85_nonvacuous : let a := MkE (V3 0 0 0) [1; 2] [] [] None in let b := MkE (V3 (/ 2) 0 0) [3; 4] [] [] None in
  let m := [("p"%string, b); ("q"%string, a)] in
  once m (V3 0 0 0) /\ once m (V3 (/ 2) 0 0) /\ read_frequencies (YMap m) [V3 0 0 0; V3 (/ 2) 0 0] = Some [[1; 2]; [3; 4]].
Proof.
  intros a b m. assert (N : V3 (/ 2) 0 0 <> V3 0 0 0) by (intros E; injection E as E; lra).
  assert (O1 : once m (V3 0 0 0)) by (exists [("p"%string, b)], "q"%string, a, []; split; [reflexivity|]; split; [reflexivity|]; intros k' e' [H|[]]; injection H as _ <-; exact N).
  assert (O2 : once m (V3 (/ 2) 0 0)) by (exists [], "p"%string, b, [("q"%string, a)]; split; [reflexivity|]; split; [reflexivity|]; intros k' e' [H|[]]; injection H as _ <-; exact (fun E => N (eq_sym E))).
  split; [exact O1|]. split; [exact O2|]. unfold read_frequencies, m. cbn [map filter snd wave_vector].
  rewrite (vec_eqb_neq (wave_vector b) (V3 0 0 0) N), (vec_eqb_neq (wave_vector a) (V3 (/ 2) 0 0)) by exact (fun E => N (eq_sym E)).
  rewrite (proj2 (vec_eqb_eq (wave_vector a) (V3 0 0 0)) eq_refl), (proj2 (vec_eqb_eq (wave_vector b) (V3 (/ 2) 0 0)) eq_refl). reflexivity.
Qed.
(** one third needs more than eight decimals *)
Example C85_third : dec8v (V3 (1 / 3) 0 0) <> V3 (1 / 3) 0 0.
Proof.
  unfold dec8v, dec8. cbn [vx vy vz]. intros E. injection E as E _ _. assert (X : (IZR (around (1 / 3 * 100000000)) * 3 = 100000000)%R) by lra.
  rewrite <- mult_IZR in X. apply eq_IZR in X. lia.
Qed.

(** * C86 *)
Section File.
Context (points : mat -> list vec) (compute : mat -> data) (velocity : vec -> list vec).
(** what the fits deliver: one row per commensurate point of the supercell used *)
Definition one_row_each : Prop := forall c, let d := compute c in d_q d = points c /\ length (d_freq d) = length (points c) /\ length (d_width d) = length (points c) /\
  length (d_shift d) = length (points c) /\ d_velocity d = None.
(** writing several files, with and without velocities *)
Fixpoint writes (flags : list bool) (o : qobj) : qobj := match flags with [] => o | b :: flags => writes flags (snd (write_data points compute velocity b o)) end.
Definition describes (c : mat) (extra : bool) (file : yaml) : Prop :=
  exists l, file = YList l /\ length l = length (points c) /\
  forall i q, nth_error (points c) i = Some q -> exists f w s e,
    nth_error (d_freq (compute c)) i = Some f /\ nth_error (d_width (compute c)) i = Some w /\ nth_error (d_shift (compute c)) i = Some s /\ nth_error l i = Some e /\
    e = MkE (dec8v q) (map dec8 f) (map dec8 w) (map dec8 s) (if extra then Some (map dec8v (velocity q)) else None).
Hypothesis H : one_row_each.
Lemma entries_from_ok d : forall qs i, (i + length qs <= length (d_freq d))%nat -> (i + length qs <= length (d_width d))%nat -> (i + length qs <= length (d_shift d))%nat ->
  match d_velocity d with Some v => (i + length qs <= length v)%nat | None => True end ->
  exists l, entries_from d i qs = Some l /\ length l = length qs /\ forall k q, nth_error qs k = Some q -> exists f w s e, nth_error (d_freq d) (i + k) = Some f /\ nth_error (d_width d) (i + k) = Some w /\
    nth_error (d_shift d) (i + k) = Some s /\ nth_error l k = Some e /\ e = MkE q f w s (match d_velocity d with Some v => nth_error v (i + k) | None => None end).
Proof.
  induction qs as [|q qs IH]; intros i A B C V; cbn [entries_from length] in *.
  - exists []. split; [reflexivity|]. split; [reflexivity|]. intros [|k] q E; discriminate.
  - destruct (IH (S i)) as (l & E & L & N); try lia; [destruct (d_velocity d); [lia|exact I]|]. rewrite E.
    destruct (nth_error (d_freq d) i) as [f|] eqn:Ef; [|apply nth_error_None in Ef; lia]. destruct (nth_error (d_width d) i) as [w|] eqn:Ew; [|apply nth_error_None in Ew; lia].
    destruct (nth_error (d_shift d) i) as [s|] eqn:Es; [|apply nth_error_None in Es; lia]. unfold entry_at. rewrite Ef, Ew, Es.
    destruct (d_velocity d) as [v|] eqn:Ev.
    + destruct (nth_error v i) as [u|] eqn:Eu; [|apply nth_error_None in Eu; lia]. cbn [option_map]. eexists. split; [reflexivity|]. split; [cbn; lia|].
      intros [|k] q' Hk; cbn in Hk.
      * injection Hk as <-. rewrite Nat.add_0_r. exists f, w, s. eexists. repeat (split; [eassumption||reflexivity|]). rewrite Eu. reflexivity.
      * replace (i + S k)%nat with (S i + k)%nat by lia. cbn [nth_error]. apply N, Hk.
    + eexists. split; [reflexivity|]. split; [cbn; lia|]. intros [|k] q' Hk; cbn in Hk.
      * injection Hk as <-. rewrite Nat.add_0_r. exists f, w, s. eexists. repeat (split; [eassumption||reflexivity|]). reflexivity.
      * replace (i + S k)%nat with (S i + k)%nat by lia. cbn [nth_error]. apply N, Hk.
Qed.
(** the cache of an object that only ever used the supercell c: nothing, or the data of c with or without velocities *)
Definition extended (c : mat) (x : bool) : data := let d := compute c in MkD (d_q d) (d_freq d) (d_width d) (d_shift d) (if x then c else d_supercell d) (if x then Some (map velocity (points c)) else None).
Definition good (c : mat) (x : bool) (o : qobj) : Prop := q_cell o = c /\ ((q_cache o = None /\ x = false) \/ q_cache o = Some (extended c x)).
Lemma compute_extended c : compute c = extended c false.
Proof. destruct (H c) as (A & B & C & D & E). unfold extended. destruct (compute c); cbn in *. subst. reflexivity. Qed.
Lemma save_ok c x : exists file, save_quasiparticle_data (extended c x) = Some file /\ describes c x file.
Proof.
  destruct (H c) as (A & B & C & D & E). destruct (entries_from_ok (extended c x) (points c) 0) as (l & El & L & N); cbn; try lia; [destruct x; [rewrite map_length; lia|exact I]|].
  unfold save_quasiparticle_data. change (d_q (extended c x)) with (d_q (compute c)). rewrite A, El. eexists. split; [reflexivity|]. exists (map written l). split; [reflexivity|].
  split; [rewrite map_length; exact L|]. intros i q Hq. destruct (N i q Hq) as (f & w & s & e & Ef & Ew & Es & Ee & ->). exists f, w, s. eexists.
  split; [exact Ef|]. split; [exact Ew|]. split; [exact Es|]. split; [apply map_nth_error, Ee|]. unfold written. cbn [wave_vector frequencies linewidths shifts velocities].
  replace (option_map (map dec8v) _) with (if x then Some (map dec8v (velocity q)) else None); [reflexivity|]. cbn. destruct x; [|reflexivity].
  rewrite (map_nth_error velocity i (points c) Hq). reflexivity.
Qed.
Lemma write_good c x b o : good c x o -> exists file, fst (write_data points compute velocity b o) = Some file /\ describes c (x || b) file /\ q_cell (snd (write_data points compute velocity b o)) = c /\ q_cache (snd (write_data points compute velocity b o)) = Some (extended c (x || b)).
Proof.
  intros [Hc Ho]. subst c. set (c := q_cell o) in *.
  assert (G : exists o1, get_data compute o = (extended c x, o1) /\ q_cell o1 = c /\ q_cache o1 = Some (extended c x)).
  { unfold get_data. destruct Ho as [[E X]|E]; rewrite E.
    - subst x. rewrite <- compute_extended. fold c. eexists. split; [reflexivity|]. split; reflexivity.
    - exists o. split; [reflexivity|]. split; [reflexivity|exact E]. }
  destruct G as (o1 & G & Hc1 & Ho1). unfold write_data. rewrite G. destruct b.
  - replace (x || true)%bool with true by (destruct x; reflexivity). unfold properties. rewrite Hc1.
    destruct (H c) as (A & _). cbn [fst snd]. replace (MkD (points c) (d_freq (extended c x)) (d_width (extended c x)) (d_shift (extended c x)) c (Some (map velocity (points c)))) with (extended c true)
      by (unfold extended; cbn; rewrite A; reflexivity).
    destruct (save_ok c true) as (file & E & De). exists file. split; [exact E|]. split; [exact De|]. split; reflexivity.
  - rewrite Bool.orb_false_r. cbn [fst snd]. destruct (save_ok c x) as (file & E & De). exists file. split; [exact E|]. split; [exact De|]. split; assumption.
Qed.
Lemma writes_good c flags : forall x o, good c x o -> good c (fold_left orb flags x) (writes flags o).
Proof. induction flags as [|b flags IH]; intros x o G; cbn; [exact G|]. apply IH. destruct (write_good c x b o G) as (f & _ & _ & G1 & C1). split; [exact G1|right; exact C1]. Qed.
Lemma writes_cached c flags : forall x o, q_cell o = c /\ q_cache o = Some (extended c x) -> q_cell (writes flags o) = c /\ q_cache (writes flags o) = Some (extended c (fold_left orb flags x)).
Proof. induction flags as [|b flags IH]; intros x o G; cbn; [exact G|]. apply IH. destruct (write_good c x b o (conj (proj1 G) (or_intror (proj2 G)))) as (f & _ & _ & G1). exact G1. Qed.
End File.

(** C86.  As long as the supercell choice is not changed, any number of writes, in any order: the file is a list with one entry per
    commensurate point, in their order, each with its own wave vector, frequencies, linewidths and shifts to eight decimals; a file written
    with velocities has those of each point.  A file written without them, before any that has them, has none. *)
Theorem C86_file_partial :
  forall points compute velocity, one_row_each points compute ->
  forall (c : mat) (flags : list bool) (extra : bool),
  exists file, fst (write_data points compute velocity extra (writes points compute velocity flags (MkQ None c))) = Some file /\
  describes points compute velocity c (extra || existsb (fun b => b) flags) file.
Proof.
  intros points compute velocity H c flags extra.
  assert (G := writes_good points compute velocity H c flags false (MkQ None c) (conj eq_refl (or_introl (conj eq_refl eq_refl)))).
  destruct (write_good points compute velocity H c _ extra _ G) as (file & E & De & _). exists file. split; [exact E|].
  replace (extra || existsb (fun b => b) flags)%bool with (fold_left orb flags false || extra)%bool; [exact De|]. rewrite Bool.orb_comm. f_equal.
  clear. assert (F : forall b, fold_left orb flags b = (b || existsb (fun b => b) flags)%bool) by (induction flags as [|a l IH]; intros b; cbn; [symmetry; apply Bool.orb_false_r|rewrite IH, Bool.orb_assoc; reflexivity]).
  rewrite F. reflexivity.
Qed.
Print Assumptions C86_file_partial.
(** The option with_extra of an earlier call changes later files: a file without velocities cannot be written any more. *)
Theorem C86_option_sticks_refuted :
  forall points compute velocity, one_row_each points compute ->
  forall (c : mat) (flags : list bool), In true flags ->
  exists file, fst (write_data points compute velocity false (writes points compute velocity flags (MkQ None c))) = Some file /\ describes points compute velocity c true file.
Proof.
  intros points compute velocity H c flags Hf. destruct (C86_file_partial points compute velocity H c flags false) as (file & E & De). exists file. split; [exact E|].
  replace (existsb (fun b => b) flags) with true in De; [exact De|]. symmetry. apply existsb_exists. exists true. auto.
Qed.
Print Assumptions C86_option_sticks_refuted.
(** After changing the supercell choice, a file with velocities lists the points of the new supercell with the frequencies fitted at the
    points of the old one; it exists whenever the new supercell has no more points. *)
Theorem C86_supercell_changed_refuted :
  forall points compute velocity, one_row_each points compute ->
  forall (c c' : mat) (flags : list bool), flags <> [] -> (length (points c') <= length (points c))%nat ->
  exists l, fst (write_data points compute velocity true (set_cell c' (writes points compute velocity flags (MkQ None c)))) = Some (YList l) /\
  length l = length (points c') /\
  forall i q, nth_error (points c') i = Some q -> exists f e, nth_error (d_freq (compute c)) i = Some f /\ nth_error l i = Some e /\ wave_vector e = dec8v q /\ frequencies e = map dec8 f.
Proof.
  intros points compute velocity H c c' flags Hf Hlen.
  assert (Ca : exists x, q_cache (writes points compute velocity flags (MkQ None c)) = Some (extended points compute velocity c x)).
  { destruct flags as [|b flags]; [contradiction|]. cbn [writes]. destruct (write_good points compute velocity H c false b (MkQ None c) (conj eq_refl (or_introl (conj eq_refl eq_refl)))) as (_ & _ & _ & G1 & C1).
    destruct (writes_cached points compute velocity H c flags _ _ (conj G1 C1)) as [_ C2]. eexists. exact C2. }
  destruct Ca as [x Ca]. unfold write_data, get_data, set_cell. cbn [q_cache]. rewrite Ca. unfold properties. cbn [q_cell fst].
  destruct (H c) as (A & B & C & D & E).
  destruct (entries_from_ok (MkD (points c') (d_freq (compute c)) (d_width (compute c)) (d_shift (compute c)) c' (Some (map velocity (points c')))) (points c') 0) as (l & El & L & N); cbn; try lia; [rewrite map_length; lia|].
  exists (map written l). unfold save_quasiparticle_data. cbn [d_q d_freq d_width d_shift extended]. rewrite El. split; [reflexivity|]. split; [rewrite map_length; exact L|].
  intros i q Hq. destruct (N i q Hq) as (f & w & s & e & Ef & _ & _ & Ee & ->). exists f. eexists. split; [exact Ef|]. split; [apply map_nth_error, Ee|]. split; reflexivity.
Qed.
Print Assumptions C86_supercell_changed_refuted.
Example C86_nonvacuous : let points (c : mat) := [V3 0 0 0; V3 (/ 2) 0 0] in
  let compute c := MkD (points c) [[0]; [1]] [[0]; [2]] [[0]; [3]] c None in
  one_row_each points compute /\
  fst (write_data points compute (fun q => [q]) false (MkQ None (M3 (V3 2 0 0) (V3 0 1 0) (V3 0 0 1)))) =
  Some (YList [MkE (dec8v (V3 0 0 0)) [dec8 0] [dec8 0] [dec8 0] None; MkE (dec8v (V3 (/ 2) 0 0)) [dec8 1] [dec8 2] [dec8 3] None]).
Proof. intros points compute. split; [intros c; repeat split|reflexivity]. Qed.
