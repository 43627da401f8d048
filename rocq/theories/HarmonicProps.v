(** C73: the ideal harmonic trajectory. *)
From Verif Require Import HarmonicModel HarmonicSpec HarmonicProofs.
From Coq Require Import Lra Lia.
Open Scope R_scope.

(** The trajectory has ceil(total_time/time_step) frames, at times 0, dt, 2 dt, ...; the reported energy is that of 3N harmonic
    oscillators at the temperature asked for; each atom moves around its lattice position by the superposition of the waves of all
    modes above the minimum frequency, with amplitude sqrt(dims kB T nq nprim^2 / natoms^2)/(2 pi f); [phase_0] enters as the common
    factor exp(phase_0). *)
Theorem C73_trajectory_partial :
  forall dims natoms nprim nq nf pos mass atype q fr ev total dt T mf p0, 0 < dt -> 0 < total ->
  let d := generate_test_trajectory dims natoms nprim nq nf pos mass atype q fr ev total dt T mf p0 in
  let n := length (trajectory d) in
  (INR n - 1) * dt < total <= INR n * dt /\
  time_array d = map (fun s => INR s * dt) (seq 0 n) /\
  energy d = repeat (INR natoms * INR dims * (831446 / 1000000) * T) n /\
  forall s, (s < n)%nat -> length (nth s (trajectory d) []) = natoms /\
  forall a, (a < natoms)%nat -> length (nth a (nth s (trajectory d) []) []) = dims /\
  forall c, (c < dims)%nat -> nth c (nth a (nth s (trajectory d) []) []) 0 =
    pos a c + exp p0 * Sum nf (fun k => Sum nq (fun i => if Rlt_dec mf (Rabs (fr i k)) then
      sqrt (INR dims * (831446 / 1000000) * T / (INR natoms / INR nprim) * (INR nq * INR nprim / INR natoms)) / (2 * PI * fr i k) / sqrt (mass a) *
      wave (ev i k (atype a) c) (Sum dims (fun c => q i c * pos a c) - 2 * PI * fr i k * (INR s * dt)) else 0)).
Proof.
  intros dims natoms nprim nq nf pos mass atype q fr ev total dt T mf p0 Hdt Ht d n.
  assert (Hn : n = Z.to_nat (rceil (total / dt))) by (unfold n, d, generate_test_trajectory; cbn [trajectory]; rewrite map_length, seq_length; reflexivity).
  clearbody n.
  assert (B := rceil_bounds (total / dt)). assert (Hp : 0 < total / dt) by (apply Rdiv_lt_0_compat; assumption).
  assert (Hz : (0 < rceil (total / dt))%Z) by (apply lt_IZR; lra).
  assert (Hi : INR n = IZR (rceil (total / dt))) by (rewrite Hn, INR_IZR_INZ, Z2Nat.id by lia; reflexivity).
  assert (Et : total = total / dt * dt) by (field; lra).
  split; [|split; [|split]].
  - rewrite Hi. set (z := IZR (rceil (total / dt))) in *. clearbody z. split; [|]; rewrite Et; [apply Rmult_lt_compat_r; lra|apply Rmult_le_compat_r; lra].
  - unfold d, generate_test_trajectory. cbn [time_array]. rewrite map_length, seq_length, Hn. reflexivity.
  - unfold d, generate_test_trajectory. cbn [energy]. rewrite map_length, seq_length, <- Hn. unfold kb_boltzmann. generalize 0%nat. generalize (INR natoms * INR dims * (831446 / 1000000) * T). clear. induction n as [|n IH]; intros x s; [reflexivity|]. cbn. rewrite IH. reflexivity.
  - intros s Hs. unfold d, generate_test_trajectory. cbn [trajectory]. rewrite <- Hn, nth_map_seq by exact Hs. split; [rewrite map_length, seq_length; reflexivity|].
    intros a Ha. rewrite nth_map_seq by exact Ha. split; [rewrite map_length, seq_length; reflexivity|].
    intros c Hc. rewrite nth_map_seq by exact Hc. rewrite coordinate_value. f_equal. rewrite <- Sum_scal. apply Sum_ext. intros k _. rewrite <- Sum_scal. apply Sum_ext. intros i _.
    unfold included. destruct (Rlt_dec mf (Rabs (fr i k))); [|ring]. rewrite term_value, Rmult_1_l. unfold amplitude, number_of_primitive_cells, atoms_relation, kb_boltzmann.
    rewrite mult_INR. replace (fr i k * 2 * PI) with (2 * PI * fr i k) by ring. reflexivity.
Qed.
(** phase_0 is documented as the common phase of the modes.  It is a factor on every displacement instead: *)
Theorem C73_phase_refuted :
  forall dims natoms nprim nq nf pos mass atype q fr ev total dt T mf p0, 0 < dt -> 0 < total ->
  let d := generate_test_trajectory dims natoms nprim nq nf pos mass atype q fr ev total dt T mf p0 in
  let d0 := generate_test_trajectory dims natoms nprim nq nf pos mass atype q fr ev total dt T mf 0 in
  forall s a c, (s < length (trajectory d0))%nat -> (a < natoms)%nat -> (c < dims)%nat ->
  nth c (nth a (nth s (trajectory d) []) []) 0 - pos a c = exp p0 * (nth c (nth a (nth s (trajectory d0) []) []) 0 - pos a c).
Proof.
  intros dims natoms nprim nq nf pos mass atype q fr ev total dt T mf p0 Hdt Ht d d0 s a c Hs Ha Hc.
  destruct (C73_trajectory_partial dims natoms nprim nq nf pos mass atype q fr ev total dt T mf p0 Hdt Ht) as (_ & _ & _ & H).
  destruct (C73_trajectory_partial dims natoms nprim nq nf pos mass atype q fr ev total dt T mf 0 Hdt Ht) as (_ & _ & _ & H0). fold d in H. fold d0 in H0.
  assert (L : length (trajectory d) = length (trajectory d0)) by (unfold d, d0, generate_test_trajectory; cbn [trajectory]; rewrite !map_length; reflexivity).
  destruct (H s ltac:(lia)) as [_ G]. destruct (G a Ha) as [_ G']. rewrite (G' c Hc). clear G G'. destruct (H0 s Hs) as [_ G]. destruct (G a Ha) as [_ G']. rewrite (G' c Hc). rewrite exp_0. ring.
Qed.
(** so a phase of 2 pi is not the identity: wherever an atom is displaced, the displacement changes for every phase_0 <> 0 *)
Theorem C73_phase_period_refuted :
  forall dims natoms nprim nq nf pos mass atype q fr ev total dt T mf p0, 0 < dt -> 0 < total -> p0 <> 0 ->
  let d := generate_test_trajectory dims natoms nprim nq nf pos mass atype q fr ev total dt T mf p0 in
  let d0 := generate_test_trajectory dims natoms nprim nq nf pos mass atype q fr ev total dt T mf 0 in
  forall s a c, (s < length (trajectory d0))%nat -> (a < natoms)%nat -> (c < dims)%nat ->
  nth c (nth a (nth s (trajectory d0) []) []) 0 <> pos a c ->
  nth c (nth a (nth s (trajectory d) []) []) 0 <> nth c (nth a (nth s (trajectory d0) []) []) 0.
Proof.
  intros dims natoms nprim nq nf pos mass atype q fr ev total dt T mf p0 Hdt Ht Hp d d0 s a c Hs Ha Hc N E.
  assert (H := C73_phase_refuted dims natoms nprim nq nf pos mass atype q fr ev total dt T mf p0 Hdt Ht s a c Hs Ha Hc). cbv zeta in H. fold d in H. fold d0 in H. rewrite E in H.
  set (x := nth c (nth a (nth s (trajectory d0) []) []) 0) in *. assert (Z0 : (exp p0 - 1) * (x - pos a c) = 0) by lra.
  apply Rmult_integral in Z0. destruct Z0 as [Z0|Z0]; [|apply N; lra]. apply Hp. apply exp_inv. rewrite exp_0. lra.
Qed.
(** With one frequency (up to sign) among the modes above the minimum, every coordinate oscillates harmonically at that frequency:
    consecutive frames obey x(t+dt) + x(t-dt) = 2 cos(2 pi f dt) x(t), measured from the lattice position. *)
Theorem C73_harmonic :
  forall dims natoms nprim nq nf pos mass atype q fr ev total dt T mf p0 f, 0 < dt -> 0 < total ->
  (forall k i, (k < nf)%nat -> (i < nq)%nat -> mf < Rabs (fr i k) -> Rabs (fr i k) = Rabs f) ->
  let d := generate_test_trajectory dims natoms nprim nq nf pos mass atype q fr ev total dt T mf p0 in
  forall s a c, (S (S s) < length (trajectory d))%nat -> (a < natoms)%nat -> (c < dims)%nat ->
  let x j := nth c (nth a (nth j (trajectory d) []) []) 0 - pos a c in
  x (S (S s)) + x s = 2 * cos (2 * PI * f * dt) * x (S s).
Proof.
  intros dims natoms nprim nq nf pos mass atype q fr ev total dt T mf p0 f Hdt Ht Hf d s a c Hs Ha Hc x.
  destruct (C73_trajectory_partial dims natoms nprim nq nf pos mass atype q fr ev total dt T mf p0 Hdt Ht) as (_ & _ & _ & H). fold d in H.
  assert (X : forall j, (j < length (trajectory d))%nat -> x j = exp p0 * Sum nf (fun k => Sum nq (fun i => if Rlt_dec mf (Rabs (fr i k)) then
      sqrt (INR dims * (831446 / 1000000) * T / (INR natoms / INR nprim) * (INR nq * INR nprim / INR natoms)) / (2 * PI * fr i k) / sqrt (mass a) *
      wave (ev i k (atype a) c) (Sum dims (fun c => q i c * pos a c) - 2 * PI * fr i k * (INR j * dt)) else 0))).
  { intros j Hj. unfold x. destruct (H j Hj) as [_ G]. destruct (G a Ha) as [_ G']. rewrite (G' c Hc). ring. }
  rewrite !X by lia. rewrite <- Rmult_plus_distr_l.
  replace (2 * cos (2 * PI * f * dt) * (exp p0 * _)) with (exp p0 * (2 * cos (2 * PI * f * dt) * Sum nf (fun k => Sum nq (fun i => if Rlt_dec mf (Rabs (fr i k)) then
      sqrt (INR dims * (831446 / 1000000) * T / (INR natoms / INR nprim) * (INR nq * INR nprim / INR natoms)) / (2 * PI * fr i k) / sqrt (mass a) *
      wave (ev i k (atype a) c) (Sum dims (fun c => q i c * pos a c) - 2 * PI * fr i k * (INR (S s) * dt)) else 0)))) by ring.
  f_equal. rewrite <- Sum_plus, <- Sum_scal. apply Sum_ext. intros k Hk. rewrite <- Sum_plus, <- Sum_scal. apply Sum_ext. intros i Hi.
  destruct (Rlt_dec mf (Rabs (fr i k))) as [L|L]; [|ring]. specialize (Hf k i Hk Hi L).
  set (A := Sum dims _). set (w := sqrt _ / _ / _). set (e := ev i k (atype a) c).
  assert (C1 : cos (2 * PI * f * dt) = cos (2 * PI * fr i k * dt)).
  { destruct (Rcase_abs f) as [Nf|Pf]; destruct (Rcase_abs (fr i k)) as [Nk|Pk].
    - rewrite (Rabs_left f), (Rabs_left (fr i k)) in Hf by assumption. replace f with (fr i k) by lra. reflexivity.
    - rewrite (Rabs_left f), (Rabs_right (fr i k)) in Hf by assumption. replace (2 * PI * f * dt) with (- (2 * PI * fr i k * dt)) by (rewrite Hf; ring). apply cos_neg.
    - rewrite (Rabs_right f), (Rabs_left (fr i k)) in Hf by assumption. replace (2 * PI * f * dt) with (- (2 * PI * fr i k * dt)) by (rewrite <- Hf; ring). apply cos_neg.
    - rewrite (Rabs_right f), (Rabs_right (fr i k)) in Hf by assumption. replace f with (fr i k) by lra. reflexivity. }
  rewrite C1, <- Rmult_plus_distr_l. rewrite !S_INR.
  replace (A - 2 * PI * fr i k * ((INR s + 1 + 1) * dt)) with ((A - 2 * PI * fr i k * ((INR s + 1) * dt)) - 2 * PI * fr i k * dt) by ring.
  replace (A - 2 * PI * fr i k * (INR s * dt)) with ((A - 2 * PI * fr i k * ((INR s + 1) * dt)) + 2 * PI * fr i k * dt) by ring.
  rewrite (Rplus_comm (wave e (_ - _))), wave_shift. ring.
Qed.
(** Energy.  For an oscillation u(t) of frequency f, m (2 pi f)^2 (u(t)^2 + u(t + 1/(4f))^2) is twice its energy.  Summed over all
    coordinates of the supercell, the wave added for a mode with a normalised eigenvector carries the same energy for every mode above the
    minimum frequency and at every time ... *)
Theorem C73_mode_energy_partial :
  forall dims natoms nprim nq pos mass (types : list nat) q fr ev T p0 cells, (0 < nprim)%nat -> (0 < cells)%nat -> natoms = (cells * nprim)%nat -> length types = natoms ->
  (forall t, In t types -> (t < nprim)%nat) -> (forall t, (t < nprim)%nat -> count_occ Nat.eq_dec types t = cells) ->
  (forall a, 0 < mass a) -> 0 <= T -> forall k i t, fr i k <> 0 ->
  Sum nprim (fun p => Sum dims (fun c => modulus2 (ev i k p c))) = 1 ->
  let u a c t := term dims natoms nprim nq pos mass (fun a => nth a types 0%nat) q fr ev T p0 t k i a c in
  Sum natoms (fun a => Sum dims (fun c => mass a * (2 * PI * fr i k)^2 * ((u a c t)^2 + (u a c (t + 1 / (4 * fr i k)))^2))) =
  exp p0 ^ 2 * (INR dims * (831446 / 1000000) * T * (INR nq / INR cells)).
Proof.
  intros dims natoms nprim nq pos mass types q fr ev T p0 cells Hnp Hce Hna Hlt Hty Hco Hm HT k i t Hfr Hnorm u.
  assert (Pi := PI_RGT_0). assert (Pc : 0 < INR cells) by (apply lt_0_INR; lia). assert (Pn : 0 < INR nprim) by (apply lt_0_INR; lia).
  assert (E : INR natoms / INR nprim = INR cells) by (rewrite Hna, mult_INR; field; lra).
  assert (E2 : INR (nq * nprim) / INR natoms = INR nq / INR cells) by (rewrite Hna, !mult_INR; field; lra).
  set (A2 := INR dims * kb_boltzmann * T / INR cells * (INR nq / INR cells)).
  assert (PA : 0 <= A2).
  { unfold A2, kb_boltzmann, Rdiv. assert (0 < / INR cells) by (apply Rinv_0_lt_compat, Pc). repeat apply Rmult_le_pos; try lra; apply pos_INR. }
  assert (Ea : amplitude dims natoms nprim nq T (fr i k) = sqrt A2 / (fr i k * 2 * PI)).
  { unfold amplitude, number_of_primitive_cells, atoms_relation. rewrite E, E2. reflexivity. }
  rewrite (Sum_ext natoms _ (fun a => exp p0 ^ 2 * A2 * Sum dims (fun c => modulus2 (ev i k (nth a types 0%nat) c)))).
  - rewrite Sum_scal. rewrite <- (sumn_Sum natoms). unfold sumn. rewrite <- Hlt.
    rewrite <- (map_map (fun a => nth a types 0%nat) (fun p => Sum dims (fun c => modulus2 (ev i k p c)))).
    assert (M : map (fun a => nth a types 0%nat) (seq 0 (length types)) = types).
    { apply (nth_ext _ _ 0%nat 0%nat); [rewrite map_length, seq_length; reflexivity|]. intros j Hj. rewrite map_length, seq_length in Hj. apply (nth_map_seq (fun a => nth a types 0%nat)). exact Hj. }
    rewrite M, (Sum_occ nprim _ types Hty). rewrite (Sum_ext nprim _ (fun p => INR cells * Sum dims (fun c => modulus2 (ev i k p c)))) by (intros p Hp; rewrite Hco by exact Hp; reflexivity).
    rewrite Sum_scal, Hnorm. unfold A2, kb_boltzmann. field. lra.
  - intros a Ha. rewrite <- Sum_scal. apply Sum_ext. intros c Hc. unfold u. rewrite !term_value, Ea.
    set (th := Sum dims (fun c => q i c * pos a c) - 2 * PI * fr i k * t).
    replace (Sum dims (fun c => q i c * pos a c) - 2 * PI * fr i k * (t + 1 / (4 * fr i k))) with (th - PI / 2) by (unfold th; field; exact Hfr).
    rewrite <- (wave_quarter (ev i k (nth a types 0%nat) c) th). set (w1 := wave _ th). set (w2 := wave _ (th - PI / 2)).
    assert (S1 := sqrt_sqrt (mass a) (Rlt_le _ _ (Hm a))). assert (S2 := sqrt_sqrt A2 PA). assert (S3 := sqrt_lt_R0 _ (Hm a)).
    set (sm := sqrt (mass a)) in *. set (sa := sqrt A2) in *. rewrite <- S1, <- S2. field. repeat split; lra.
Qed.
(** ... but with all commensurate points present (nq = cells) it is dims/2 times the energy kB T of the equipartition theorem: in three
    dimensions the trajectory is 3/2 hotter than asked for. *)
Theorem C73_equipartition_refuted :
  forall natoms nprim pos mass (types : list nat) q fr ev T cells, (0 < nprim)%nat -> (0 < cells)%nat -> natoms = (cells * nprim)%nat -> length types = natoms ->
  (forall t, In t types -> (t < nprim)%nat) -> (forall t, (t < nprim)%nat -> count_occ Nat.eq_dec types t = cells) ->
  (forall a, 0 < mass a) -> 0 < T -> forall k i t, fr i k <> 0 ->
  Sum nprim (fun p => Sum 3 (fun c => modulus2 (ev i k p c))) = 1 ->
  let u a c t := term 3 natoms nprim cells pos mass (fun a => nth a types 0%nat) q fr ev T 0 t k i a c in
  let twice_energy := Sum natoms (fun a => Sum 3 (fun c => mass a * (2 * PI * fr i k)^2 * ((u a c t)^2 + (u a c (t + 1 / (4 * fr i k)))^2))) in
  twice_energy / 2 = 3 / 2 * ((831446 / 1000000) * T) /\ twice_energy / 2 <> (831446 / 1000000) * T.
Proof.
  intros natoms nprim pos mass types q fr ev T cells Hnp Hce Hna Hlt Hty Hco Hm HT k i t Hfr Hnorm u w.
  assert (H := C73_mode_energy_partial 3 natoms nprim cells pos mass types q fr ev T 0 cells Hnp Hce Hna Hlt Hty Hco Hm (Rlt_le _ _ HT) k i t Hfr Hnorm). cbv zeta in H. fold u in H.
  assert (Pc : 0 < INR cells) by (apply lt_0_INR; lia).
  assert (E : w = 3 * ((831446 / 1000000) * T)).
  { unfold w. rewrite H, exp_0. cbn [INR]. field. lra. }
  rewrite E. split; [field|]. lra.
Qed.

(** One atom, one cell, one mode of 2 THz polarised along x: all hypotheses are met and the atom moves. *)
Definition ev1 : nat -> nat -> nat -> nat -> C := fun _ _ _ c => match c with O => RtoC 1 | _ => RtoC 0 end.
Example C73_nonvacuous : 0 < 2 / 1000 /\ 0 < 2 /\ 
  (forall k i : nat, (k < 1)%nat -> (i < 1)%nat -> 1/10 < Rabs 2 -> Rabs 2 = Rabs 2) /\
  Sum 1 (fun p => Sum 3 (fun c => modulus2 (ev1 0 0 p c))) = 1 /\ (forall t, In t [0%nat] -> (t < 1)%nat) /\
  (forall t, (t < 1)%nat -> count_occ Nat.eq_dec [0%nat] t = 1%nat) /\
  0 < term 3 1 1 1 (fun _ _ => 0) (fun _ => 1) (fun _ => 0%nat) (fun _ _ => 0) (fun _ _ => 2) ev1 400 0 0 0 0 0 0.
Proof.
  split; [lra|]. split; [lra|]. split; [reflexivity|]. split; [cbn; unfold modulus2, RtoC; cbn; ring|]. split; [intros t [<- | []]; lia|].
  split; [intros t Ht; replace t with 0%nat by lia; reflexivity|].
  rewrite term_value. unfold wave, ev1, RtoC. cbn [fst snd Sum]. replace (0 + 0 * 0 + 0 * 0 + 0 * 0 - 2 * PI * 2 * 0) with 0 by ring. rewrite exp_0, cos_0, sin_0.
  replace (1 * (_ * (1 * 1 - 0 * 0))) with (amplitude 3 1 1 1 400 2 / sqrt 1) by ring.
  assert (Pi := PI_RGT_0). unfold amplitude, number_of_primitive_cells, atoms_relation, kb_boltzmann. apply Rdiv_lt_0_compat; [|rewrite sqrt_1; lra]. apply Rdiv_lt_0_compat; [|lra].
  apply sqrt_lt_R0. cbn. lra.
Qed.
Print Assumptions C73_trajectory_partial. Print Assumptions C73_phase_refuted. Print Assumptions C73_phase_period_refuted. Print Assumptions C73_harmonic.
Print Assumptions C73_mode_energy_partial. Print Assumptions C73_equipartition_refuted.
