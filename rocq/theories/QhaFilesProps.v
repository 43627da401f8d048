(** C128: the quasi-harmonic script and the quasiparticle files it is given *)
From Verif Require Import QhaFilesModel QhaFilesProofs.
From Coq Require Import Lra Lia.
Open Scope R_scope.

(** * Vocabulary *)
(** every file lists n wave vectors with nb frequencies each *)
Definition complete (n nb : nat) (file : qfile) : Prop := List.length file = n /\ forall e, In e file -> List.length (fe_frequencies e) = nb.
(** two files list the same wave vectors in the same order *)
Definition same_order (f g : qfile) : Prop := map fe_q f = map fe_q g.
(** phonopy returns nb frequencies at every wave vector *)
Definition branches (harmonic : vec -> list R) (nb : nat) : Prop := forall q, List.length (harmonic q) = nb.
(** the shift that belongs to an entry: its frequency of branch b minus the harmonic frequency of the same branch at the same wave vector *)
Definition own_shift (harmonic : vec -> list R) (e : fentry) (b : nat) : R := nth b (fe_frequencies e) 0 - nth b (harmonic (fe_q e)) 0.
(** exact least squares do not depend on the order of the points *)
Definition orderless (polyfit : list R -> list R -> nat -> R -> R) : Prop :=
  forall x y x' y' d t, List.length x = List.length y -> List.length x' = List.length y' -> Permutation (combine x y) (combine x' y') -> polyfit x y d t = polyfit x' y' d t.

Section C128.
Context (harmonic : vec -> list R) (polyfit : list R -> list R -> nat -> R -> R) (interp : list (R * R) -> R -> option R).
Notation matrix := (get_shift_matrix_temperature harmonic).

Lemma harmonic_table n nb file : branches harmonic nb -> complete n nb file -> is_table n nb (map (fun e => harmonic (fe_q e)) file).
Proof. intros Hb [L _]. split; [rewrite map_length; exact L|]. intros r Hr. apply in_map_iff in Hr. destruct Hr as [e [<- _]]. apply Hb. Qed.
Lemma frequencies_table n nb file : complete n nb file -> is_table n nb (map fe_frequencies file).
Proof. intros [L H]. split; [rewrite map_length; exact L|]. intros r Hr. apply in_map_iff in Hr. destruct Hr as [e [<- He]]. apply H, He. Qed.
Lemma at2_map (f : fentry -> list R) file j e b : nth_error file j = Some e -> at2 (map f file) j b = nth b (f e) 0.
Proof. intros H. unfold at2. f_equal. apply (map_nth_error f) in H. apply nth_error_nth. exact H. Qed.
Lemma nth_series (l : list (list (list R))) k m q b : nth_error l k = Some m -> nth_error (series l q b) k = Some (at2 m q b).
Proof. intros H. unfold series. rewrite (map_nth_error _ _ _ H). reflexivity. Qed.

Lemma matrix_ok n nb i file0 : (1 <= n)%nat -> branches harmonic nb -> nth_error (i_files_t i) 0 = Some file0 ->
  (forall f, In f (i_files_t i) -> complete n nb f) -> (List.length (i_temperatures i) <= List.length (i_files_t i))%nat ->
  exists l, matrix i = Some l /\ List.length l = List.length (i_temperatures i) /\ (forall m, In m l -> is_table n nb m) /\
    forall k f, (k < List.length (i_temperatures i))%nat -> nth_error (i_files_t i) k = Some f ->
      exists m, nth_error l k = Some m /\ forall q b, (q < n)%nat -> (b < nb)%nat -> at2 m q b = at2 (map fe_frequencies f) q b - at2 (map (fun e => harmonic (fe_q e)) file0) q b.
Proof.
  intros Hn Hb H0 Hc L. assert (C0 : complete n nb file0) by (apply Hc; eapply nth_error_In; eauto). set (h := map (fun e => harmonic (fe_q e)) file0).
  assert (Th : is_table n nb h) by (apply harmonic_table; assumption).
  destruct (shift_loop_ok (i_temperatures i) (i_files_t i) h (fun f m => is_table n nb m /\ forall q b, (q < n)%nat -> (b < nb)%nat -> at2 m q b = at2 (map fe_frequencies f) q b - at2 h q b) 0) as [l [E [Ll V]]].
  - lia.
  - intros j f Hj Hf. destruct (minus_array_table n nb (map fe_frequencies f) h) as [m [Em [Tm Vm]]]; [apply frequencies_table, Hc; eapply nth_error_In; eauto|exact Th|]. exists m. auto.
  - assert (TT : forall m, In m l -> is_table n nb m).
    { intros m Hm. apply In_nth_error in Hm. destruct Hm as [k Hk]. assert (Hkl : (k < List.length l)%nat) by (apply nth_error_Some; congruence).
      destruct (nth_error (i_files_t i) k) as [f|] eqn:Ef; [|exfalso; apply nth_error_None in Ef; lia]. destruct (V k f ltac:(lia) Ef) as [m' [Em' [T' _]]]. rewrite Hk in Em'. injection Em' as <-. exact T'. }
    exists l. split; [|split; [exact Ll|split; [exact TT|]]].
    + unfold get_shift_matrix_temperature, get_harmonic_frequencies. rewrite H0. cbn [option_map]. fold h. rewrite E. apply (stack_ok n nb); assumption.
    + intros k f Hk Hf. destruct (V k f Hk Hf) as [m [Em [_ Vm]]]. exists m. auto.
Qed.

(** what is computed: row j of a file is compared with the wave vector that the first temperature file lists in row j *)
Theorem C128_row_by_row : forall n nb i file0, (1 <= n)%nat -> branches harmonic nb -> nth_error (i_files_t i) 0 = Some file0 ->
  (forall f, In f (i_files_t i) -> complete n nb f) -> (List.length (i_temperatures i) <= List.length (i_files_t i))%nat ->
  exists m, matrix i = Some m /\
    forall k f j e e0 b, (k < List.length (i_temperatures i))%nat -> nth_error (i_files_t i) k = Some f -> nth_error f j = Some e -> nth_error file0 j = Some e0 -> (b < nb)%nat ->
      nth_error (series m j b) k = Some (nth b (fe_frequencies e) 0 - nth b (harmonic (fe_q e0)) 0).
Proof.
  intros n nb i file0 Hn Hb H0 Hc L. destruct (matrix_ok n nb i file0 Hn Hb H0 Hc L) as [l [E [Ll [_ V]]]]. exists l. split; [exact E|].
  intros k f j e e0 b Hk Hf He He0 Hbb. destruct (V k f Hk Hf) as [m [Em Vm]]. rewrite (nth_series _ _ _ _ _ Em). f_equal.
  assert (Hj : (j < n)%nat). { destruct (Hc f (nth_error_In _ _ Hf)) as [Lf _]. rewrite <- Lf. apply nth_error_Some. congruence. }
  rewrite (Vm j b Hj Hbb). rewrite (at2_map fe_frequencies f j e b He), (at2_map (fun e => harmonic (fe_q e)) file0 j e0 b He0). reflexivity.
Qed.

(** files that list their wave vectors in one order: the shift of file k, wave vector j is the entry's own shift *)
Theorem C128_own_shifts_partial : forall n nb i file0, (1 <= n)%nat -> branches harmonic nb -> nth_error (i_files_t i) 0 = Some file0 ->
  (forall f, In f (i_files_t i) -> complete n nb f) -> (forall f, In f (i_files_t i) -> same_order f file0) ->
  (List.length (i_temperatures i) <= List.length (i_files_t i))%nat ->
  exists m, matrix i = Some m /\
    forall k f j e b, (k < List.length (i_temperatures i))%nat -> nth_error (i_files_t i) k = Some f -> nth_error f j = Some e -> (b < nb)%nat ->
      nth_error (series m j b) k = Some (own_shift harmonic e b).
Proof.
  intros n nb i file0 Hn Hb H0 Hc Hs L. destruct (C128_row_by_row n nb i file0 Hn Hb H0 Hc L) as [m [E V]]. exists m. split; [exact E|].
  intros k f j e b Hk Hf He Hbb. assert (S1 := Hs f (nth_error_In _ _ Hf)). unfold same_order in S1.
  assert (X : nth_error (map fe_q file0) j = Some (fe_q e)) by (rewrite <- S1; apply map_nth_error; exact He).
  destruct (nth_error file0 j) as [e0|] eqn:E0; [|exfalso; apply nth_error_None in E0; assert (Y : nth_error (map fe_q file0) j = None) by (apply nth_error_None; rewrite map_length; exact E0); congruence].
  rewrite (map_nth_error _ _ _ E0) in X. injection X as X. rewrite (V k f j e e0 b Hk Hf He E0 Hbb). unfold own_shift. rewrite X. reflexivity.
Qed.

(** "each frequency is compared with the harmonic frequency of its own wave vector" is false for every pair of files that list different wave vectors in a row
    (unless the harmonic frequencies happen to be equal): no error, wrong shift *)
Theorem C128_own_shifts_refuted : forall n nb i file0, (1 <= n)%nat -> branches harmonic nb -> nth_error (i_files_t i) 0 = Some file0 ->
  (forall f, In f (i_files_t i) -> complete n nb f) -> (List.length (i_temperatures i) <= List.length (i_files_t i))%nat ->
  forall k f j e e0 b, (k < List.length (i_temperatures i))%nat -> nth_error (i_files_t i) k = Some f -> nth_error f j = Some e -> nth_error file0 j = Some e0 -> (b < nb)%nat ->
  nth b (harmonic (fe_q e)) 0 <> nth b (harmonic (fe_q e0)) 0 ->
  exists m x, matrix i = Some m /\ nth_error (series m j b) k = Some x /\ x <> own_shift harmonic e b.
Proof.
  intros n nb i file0 Hn Hb H0 Hc L k f j e e0 b Hk Hf He He0 Hbb Hd. destruct (C128_row_by_row n nb i file0 Hn Hb H0 Hc L) as [m [E V]].
  exists m. eexists. split; [exact E|]. split; [exact (V k f j e e0 b Hk Hf He He0 Hbb)|]. unfold own_shift. lra.
Qed.

(** the number of wave vectors: a file with another number of them, more than one, is refused ... *)
Theorem C128_size_partial : forall i file0 k f, nth_error (i_files_t i) 0 = Some file0 ->
  nth_error (i_files_t i) k = Some f -> (k < List.length (i_temperatures i))%nat -> List.length f <> List.length file0 -> List.length f <> 1%nat -> matrix i = None.
Proof.
  intros i file0 k f H0 Hf Hk Lf L1. unfold get_shift_matrix_temperature, get_harmonic_frequencies. rewrite H0. cbn [option_map]. set (h := map (fun e => harmonic (fe_q e)) file0).
  destruct (Nat.eq_dec (List.length file0) 1) as [E1|N1].
  - destruct (shift_loop 0 (i_temperatures i) (i_files_t i) h) as [l|] eqn:E; [|reflexivity]. destruct (shift_loop_inv _ _ _ _ _ E) as [Ll V].
    assert (R1 : exists r, h = [r]). { unfold h. destruct file0 as [|e0 [|e1 file0]]; try discriminate. eexists. reflexivity. } destruct R1 as [r R1]. rewrite R1 in V.
    assert (LL : forall j m, nth_error l j = Some m -> exists g, nth_error (i_files_t i) j = Some g /\ List.length m = List.length g).
    { intros j m Hm. destruct (V j m Hm) as [g [Hg Eg]]. exists g. split; [exact Hg|]. rewrite (minus_length _ _ _ Eg), map_length. reflexivity. }
    destruct (nth_error l k) as [m|] eqn:Em; [|exfalso; apply nth_error_None in Em; lia]. destruct (LL k m Em) as [g [Hg Lg]]. rewrite Hf in Hg. injection Hg as <-.
    destruct l as [|m0 l]; [cbn in Ll; lia|]. destruct (LL 0%nat m0 eq_refl) as [g0 [Hg0 Lg0]]. rewrite H0 in Hg0. injection Hg0 as <-.
    unfold stack. cbn [hd]. destruct (forallb (same_shape m0) (m0 :: l)) eqn:EF; [|reflexivity]. exfalso. rewrite forallb_forall in EF. assert (X := EF m (nth_error_In _ _ Em)).
    unfold same_shape in X. apply andb_prop in X. destruct X as [X _]. apply Nat.eqb_eq in X. congruence.
  - rewrite (shift_loop_fail (i_temperatures i) (i_files_t i) _ k f 0); [reflexivity|lia|exact Hf|].
    unfold minus_array, np_array. destruct (rectangular (map fe_frequencies f)); [|reflexivity]. destruct (rectangular h); [|reflexivity].
    apply broadcast_refused; unfold h; rewrite !map_length; assumption.
Qed.
(** and so is one that lists different numbers of frequencies at two wave vectors *)
Theorem C128_ragged_refused : forall i k f e e', nth_error (i_files_t i) k = Some f -> (k < List.length (i_temperatures i))%nat -> In e f -> In e' f ->
  List.length (fe_frequencies e) <> List.length (fe_frequencies e') -> matrix i = None.
Proof.
  intros i k f e e' Hf Hk He He' Hd. unfold get_shift_matrix_temperature. destruct (get_harmonic_frequencies harmonic i) as [h|]; [|reflexivity].
  rewrite (shift_loop_fail (i_temperatures i) (i_files_t i) _ k f 0); [reflexivity|lia|exact Hf|]. unfold minus_array. rewrite (ragged _ _ _ (in_map _ _ _ He) (in_map _ _ _ He') Hd). reflexivity.
Qed.
(** ... but a file that lists a single wave vector is silently taken as the data of all of them *)
Theorem C128_single_entry_refuted : forall n nb i file0, (1 <= n)%nat -> branches harmonic nb -> nth_error (i_files_t i) 0 = Some file0 -> complete n nb file0 ->
  (forall f, In f (i_files_t i) -> complete n nb f \/ exists e, f = [e] /\ List.length (fe_frequencies e) = nb) -> (List.length (i_temperatures i) <= List.length (i_files_t i))%nat ->
  exists m, matrix i = Some m /\
    forall k e j e' b, (k < List.length (i_temperatures i))%nat -> nth_error (i_files_t i) k = Some [e] -> nth_error file0 j = Some e' -> (b < nb)%nat ->
      nth_error (series m j b) k = Some (nth b (fe_frequencies e) 0 - nth b (harmonic (fe_q e')) 0).
Proof.
  intros n nb i file0 Hn Hb H0 C0 Hc L. set (h := map (fun e => harmonic (fe_q e)) file0).
  assert (Th : is_table n nb h) by (apply harmonic_table; assumption).
  destruct (shift_loop_ok (i_temperatures i) (i_files_t i) h (fun f m => is_table n nb m /\ forall e, f = [e] -> forall q b, (q < n)%nat -> (b < nb)%nat -> at2 m q b = nth b (fe_frequencies e) 0 - at2 h q b) 0) as [l [E [Ll V]]].
  - lia.
  - intros j f Hj Hf. destruct (Hc f (nth_error_In _ _ Hf)) as [Cf|[e [-> Le]]].
    + destruct (minus_array_table n nb (map fe_frequencies f) h (frequencies_table _ _ _ Cf) Th) as [m [Em [Tm Vm]]]. exists m. split; [exact Em|]. split; [exact Tm|].
      intros e -> q b Hq Hbb. rewrite (Vm q b Hq Hbb). destruct Cf as [Lf _]. cbn in Lf. assert (q = 0%nat) by lia. subst q. reflexivity.
    + destruct (minus_array_single n nb (fe_frequencies e) h Le Hn Th) as [m [Em [Tm Vm]]]. exists m. split; [exact Em|]. split; [exact Tm|]. intros e' He q b Hq Hbb. injection He as <-. apply Vm; assumption.
  - assert (TT : forall m, In m l -> is_table n nb m).
    { intros m Hm. apply In_nth_error in Hm. destruct Hm as [k Hk]. assert (Hkl : (k < List.length l)%nat) by (apply nth_error_Some; congruence).
      destruct (nth_error (i_files_t i) k) as [f|] eqn:Ef; [|exfalso; apply nth_error_None in Ef; lia]. destruct (V k f ltac:(lia) Ef) as [m' [Em' [T' _]]]. rewrite Hk in Em'. injection Em' as <-. exact T'. }
    exists l. split.
    + unfold get_shift_matrix_temperature, get_harmonic_frequencies. rewrite H0. cbn [option_map]. fold h. rewrite E. apply (stack_ok n nb); assumption.
    + intros k e j e' b Hk Hf He' Hbb. destruct (V k [e] Hk Hf) as [m [Em [_ Vm]]]. rewrite (nth_series _ _ _ _ _ Em). f_equal.
      assert (Hj : (j < n)%nat) by (rewrite <- (proj1 C0); apply nth_error_Some; congruence).
      rewrite (Vm e eq_refl j b Hj Hbb). f_equal. unfold h. apply (at2_map (fun e => harmonic (fe_q e))). exact He'.
Qed.
(** fewer files than temperatures: the script stops ... *)
Theorem C128_missing_file : forall i, (List.length (i_files_t i) < List.length (i_temperatures i))%nat -> matrix i = None.
Proof.
  intros i L. unfold get_shift_matrix_temperature. destruct (get_harmonic_frequencies harmonic i) as [h|]; [|reflexivity]. rewrite shift_loop_short by lia. reflexivity.
Qed.
Theorem C128_missing_volume_file : forall i, (List.length (i_files_v i) < List.length (i_volumes i))%nat -> get_shift_matrix_volume harmonic polyfit i = None.
Proof.
  intros i L. unfold get_shift_matrix_volume. destruct (get_harmonic_frequencies harmonic i) as [h|]; [|reflexivity]. destruct (get_fitted_shifts_temperature harmonic polyfit i (i_reference i)) as [s|]; [|reflexivity].
  destruct (plus_array s h) as [r|]; [|reflexivity]. rewrite shift_loop_short by lia. reflexivity.
Qed.
(** ... more files than temperatures: the surplus files have no influence, and nothing is said *)
Theorem C128_surplus_refuted : forall ft extra fv ts vs r o tm, (List.length ts <= List.length ft)%nat -> ft <> [] ->
  matrix (MkI (ft ++ extra) fv ts vs r o tm) = matrix (MkI ft fv ts vs r o tm).
Proof.
  intros ft extra fv ts vs r o tm L Hne. unfold get_shift_matrix_temperature, get_harmonic_frequencies. cbn [i_files_t i_temperatures].
  rewrite nth_error_app1 by (destruct ft; [contradiction|cbn; lia]). destruct (nth_error ft 0); [|reflexivity]. cbn [option_map]. rewrite shift_loop_app; [reflexivity|exact L].
Qed.

(** the order in which (temperature, file) pairs are given does not change the fitted shifts, at any temperature, if all files list their wave vectors in one order *)
Lemma series_value n nb i file0 l : (1 <= n)%nat -> branches harmonic nb -> nth_error (i_files_t i) 0 = Some file0 ->
  (forall f, In f (i_files_t i) -> complete n nb f) -> List.length (i_temperatures i) = List.length (i_files_t i) -> matrix i = Some l ->
  forall q b, (q < n)%nat -> (b < nb)%nat -> series l q b = map (fun f => at2 (map fe_frequencies f) q b - at2 (map (fun e => harmonic (fe_q e)) file0) q b) (i_files_t i).
Proof.
  intros Hn Hb H0 Hc L E q b Hq Hbb. destruct (matrix_ok n nb i file0 Hn Hb H0 Hc ltac:(lia)) as [l' [E' [Ll [_ V]]]]. rewrite E in E'. injection E' as <-.
  apply (nth_ext _ _ 0 0); [unfold series; rewrite !map_length; transitivity (List.length (i_temperatures i)); [exact Ll|exact L]|]. intros k Hk. unfold series in Hk. rewrite map_length in Hk.
  destruct (nth_error (i_files_t i) k) as [f|] eqn:Ef; [|exfalso; apply nth_error_None in Ef; lia]. destruct (V k f ltac:(lia) Ef) as [m [Em Vm]].
  transitivity (at2 m q b); [apply nth_error_nth; apply nth_series; exact Em|]. rewrite (Vm q b Hq Hbb). symmetry. apply nth_error_nth. exact (map_nth_error (fun f => at2 (map fe_frequencies f) q b - at2 (map (fun e => harmonic (fe_q e)) file0) q b) k (i_files_t i) Ef).
Qed.
Lemma fitted_value n nb i file0 t : (1 <= n)%nat -> branches harmonic nb -> nth_error (i_files_t i) 0 = Some file0 ->
  (forall f, In f (i_files_t i) -> complete n nb f) -> List.length (i_temperatures i) = List.length (i_files_t i) ->
  get_fitted_shifts_temperature harmonic polyfit i (Some t) =
  Some (tabulate n nb (fun q b => polyfit (i_temperatures i) (map (fun f => at2 (map fe_frequencies f) q b - at2 (map (fun e => harmonic (fe_q e)) file0) q b) (i_files_t i)) (i_order i) t)).
Proof.
  intros Hn Hb H0 Hc L. destruct (matrix_ok n nb i file0 Hn Hb H0 Hc ltac:(lia)) as [l [E [Ll [TT _]]]]. unfold get_fitted_shifts_temperature. rewrite E.
  assert (SV := series_value n nb i file0 l Hn Hb H0 Hc L E). destruct l as [|m l]; [exfalso; destruct (i_files_t i); cbn in *; [discriminate|lia]|].
  apply evaluate_ok; [exact Hn|exact TT|]. intros q b Hq Hbb. rewrite (SV q b Hq Hbb). reflexivity.
Qed.
Lemma combine_map_r {A B D} (f : B -> D) (a : list A) (b : list B) : combine a (map f b) = map (fun p => (fst p, f (snd p))) (combine a b).
Proof. revert b. induction a as [|x a IH]; intros [|y b]; cbn; [reflexivity..|]. rewrite IH. reflexivity. Qed.
Theorem C128_listing_order_partial : orderless polyfit -> forall n nb i i' file0 file0' t, (1 <= n)%nat -> branches harmonic nb ->
  nth_error (i_files_t i) 0 = Some file0 -> nth_error (i_files_t i') 0 = Some file0' ->
  (forall f, In f (i_files_t i) -> complete n nb f /\ same_order f file0) ->
  List.length (i_temperatures i) = List.length (i_files_t i) -> List.length (i_temperatures i') = List.length (i_files_t i') -> i_order i' = i_order i ->
  Permutation (combine (i_temperatures i) (i_files_t i)) (combine (i_temperatures i') (i_files_t i')) ->
  exists s, get_fitted_shifts_temperature harmonic polyfit i (Some t) = Some s /\ get_fitted_shifts_temperature harmonic polyfit i' (Some t) = Some s.
Proof.
  intros HP n nb i i' file0 file0' t Hn Hb H0 H0' Hc L L' Ho P.
  assert (Pf : Permutation (i_files_t i) (i_files_t i')).
  { assert (X := Permutation_map snd P). assert (S : forall a (b : list qfile), List.length a = List.length b -> map snd (combine (a : list R) b) = b).
    { clear. induction a as [|x a IH]; intros [|y b] H; try discriminate; [reflexivity|]. cbn. rewrite IH; [reflexivity|cbn in H; lia]. }
    rewrite !S in X by assumption. exact X. }
  assert (Hc' : forall f, In f (i_files_t i') -> complete n nb f). { intros f Hf. apply Hc. eapply Permutation_in; [apply Permutation_sym; exact Pf|exact Hf]. }
  assert (S0 : same_order file0' file0). { apply Hc. eapply Permutation_in; [apply Permutation_sym; exact Pf|]. eapply nth_error_In; exact H0'. }
  eexists. split; [apply (fitted_value n nb i file0); try assumption; intros f Hf; apply Hc, Hf|].
  rewrite (fitted_value n nb i' file0' t Hn Hb H0' Hc' L'). f_equal. rewrite Ho. unfold tabulate. apply map_ext_in. intros q _. apply map_ext_in. intros b _.
  assert (EH : map (fun e => harmonic (fe_q e)) file0' = map (fun e => harmonic (fe_q e)) file0). { rewrite <- (map_map fe_q harmonic), S0, map_map. reflexivity. }
  rewrite EH. symmetry. apply HP; [rewrite map_length; assumption..|]. rewrite !combine_map_r. apply Permutation_map. exact P.
Qed.

Section Run.
Context {P : Type} (thermal : list (list R) -> R -> P).
Notation run := (run harmonic polyfit interp thermal).
(** ... but it decides whether the script runs at all: the temperatures analysed end at the one listed last, so a list that ends at or below tmin stops the script *)
Theorem C128_last_listed_refuted : forall i t0, i_tmin i = Some t0 -> last (i_temperatures i) 0 <= t0 -> run i = None.
Proof.
  intros i t0 H0 Hl. assert (R0 : range_of i = []).
  { unfold range_of, get_temperature_range. cbn [f_tmin f_tmax f_temperatures]. rewrite H0. destruct (arange_len t0 (last (i_temperatures i) 0) 10); [reflexivity|]. cbn. destruct (Rlt_dec t0 (last (i_temperatures i) 0)); [lra|reflexivity]. }
  unfold QhaFilesModel.run. rewrite R0. cbn [rev]. destruct (sequence _); reflexivity.
Qed.
(** --ref_temperature is declared optional, but without it every run stops *)
Theorem C128_reference_required_refuted : forall i e file0 files, i_files_t i = (e :: file0) :: files -> fe_frequencies e <> [] -> harmonic (fe_q e) <> [] ->
  i_temperatures i <> [] -> i_volumes i <> [] -> i_reference i = None -> run i = None.
Proof.
  intros i e file0 files Hf He Hh Ht Hv Hr. unfold QhaFilesModel.run. destruct (range_of i) as [|t rg] eqn:Er; [cbn [rev]; destruct (sequence _); reflexivity|].
  destruct (i_volumes i) as [|v vs]; [contradiction|].
  assert (F : get_fitted_shifts_temperature harmonic polyfit i None = None).
  { unfold get_fitted_shifts_temperature. destruct (get_shift_matrix_temperature harmonic i) as [m|] eqn:Em; [|reflexivity].
    unfold get_shift_matrix_temperature, get_harmonic_frequencies in Em. rewrite Hf in Em. cbn [nth_error option_map map] in Em. destruct (i_temperatures i) as [|t1 ts]; [contradiction|]. cbn [shift_loop nth_error map] in Em.
    destruct (minus_array (fe_frequencies e :: map fe_frequencies file0) (harmonic (fe_q e) :: map (fun e => harmonic (fe_q e)) file0)) as [m0|] eqn:E0; [|discriminate].
    destruct (shift_loop 1 ts ((e :: file0) :: files) (harmonic (fe_q e) :: map (fun e => harmonic (fe_q e)) file0)) as [l|]; [|discriminate]. unfold stack in Em. destruct (forallb _ _); [|discriminate]. injection Em as <-.
    unfold minus_array, np_array in E0. destruct (rectangular _); [|discriminate]. destruct (rectangular _); [|discriminate].
    apply broadcast_hd in E0. destruct E0 as [z [m' [-> Ez]]]. unfold minus_row in Ez. destruct (fe_frequencies e) as [|x xs]; [contradiction|]. destruct (harmonic (fe_q e)) as [|y ys]; [contradiction|].
    apply broadcast_hd in Ez. destruct Ez as [w [z' [-> _]]]. reflexivity. }
  assert (G : get_total_frequencies harmonic polyfit interp i t v = None).
  { unfold get_total_frequencies, get_interpolated_shifts_volume, get_shift_matrix_volume. rewrite Hr, F. destruct (get_fitted_shifts_temperature _ _ _ (Some t)); [|reflexivity]. destruct (get_harmonic_frequencies harmonic i); reflexivity. }
  cbn [map]. rewrite G. reflexivity.
Qed.
End Run.

(** consistent input: the table of frequencies is the one described by C88 (and C104) for the numbers read from the files *)
Definition numbers (i : inputs) (file0 : qfile) (reference : R) : fitting :=
  let read (g : fentry -> list R) (f : qfile) : table2 := fun q b => nth b (nth q (map g f) []) 0 in
  MkF (read (fun e => harmonic (fe_q e)) file0) (i_temperatures i) (map (read fe_frequencies) (i_files_t i)) (i_volumes i) (map (read fe_frequencies) (i_files_v i)) reference (i_order i) (i_tmin i) None.
Theorem C128_consistent_input : forall n nb i file0 reference t v, (1 <= n)%nat -> branches harmonic nb -> nth_error (i_files_t i) 0 = Some file0 ->
  (forall f, In f (i_files_t i ++ i_files_v i) -> complete n nb f) -> i_reference i = Some reference -> i_volumes i <> [] ->
  List.length (i_temperatures i) = List.length (i_files_t i) -> List.length (i_volumes i) = List.length (i_files_v i) ->
  (forall y, List.length y = List.length (i_volumes i) -> interp (combine (i_volumes i) y) v <> None) ->
  exists table, get_total_frequencies harmonic polyfit interp i t v = Some table /\ is_table n nb table /\
    forall q b, (q < n)%nat -> (b < nb)%nat -> Some (nth b (nth q table []) 0) = total_frequency polyfit interp (numbers i file0 reference) t (Some v) q b.
Proof.
  intros n nb i file0 reference t v Hn Hb H0 Hc Hr Hv L Lv HI.
  assert (Hct : forall f, In f (i_files_t i) -> complete n nb f) by (intros f Hf; apply Hc, in_or_app; left; exact Hf).
  assert (Hcv : forall f, In f (i_files_v i) -> complete n nb f) by (intros f Hf; apply Hc, in_or_app; right; exact Hf).
  assert (C0 : complete n nb file0) by (apply Hct; eapply nth_error_In; eauto). set (h := map (fun e => harmonic (fe_q e)) file0).
  assert (Th : is_table n nb h) by (apply harmonic_table; assumption).
  set (N := numbers i file0 reference).
  assert (Fit : forall s, get_fitted_shifts_temperature harmonic polyfit i (Some s) = Some (tabulate n nb (fitted_t polyfit N s))).
  { intros s. rewrite (fitted_value n nb i file0 s Hn Hb H0 Hct L). f_equal. unfold tabulate. apply map_ext. intros q. apply map_ext. intros b.
    unfold fitted_t, shifts_t, N, numbers. cbn [f_temperatures f_order f_files_t f_harmonic]. rewrite map_map. reflexivity. }
  assert (HH : get_harmonic_frequencies harmonic i = Some h) by (unfold get_harmonic_frequencies; rewrite H0; reflexivity).
  destruct (plus_array_table n nb (tabulate n nb (fitted_t polyfit N reference)) h (tabulate_table _ _ _) Th) as [ref [Eref [Tref Vref]]].
  assert (Vr : forall q b, (q < n)%nat -> (b < nb)%nat -> at2 ref q b = QhaModel.reference polyfit N q b).
  { intros q b Hq Hbb. rewrite (Vref q b Hq Hbb), at2_tabulate by assumption. reflexivity. }
  destruct (shift_loop_ok (i_volumes i) (i_files_v i) ref (fun f m => is_table n nb m /\ forall q b, (q < n)%nat -> (b < nb)%nat -> at2 m q b = at2 (map fe_frequencies f) q b - at2 ref q b) 0) as [l [E [Ll V]]].
  { lia. }
  { intros j f Hj Hf. destruct (minus_array_table n nb (map fe_frequencies f) ref) as [m [Em [Tm Vm]]]; [apply frequencies_table, Hcv; eapply nth_error_In; eauto|exact Tref|]. exists m. auto. }
  assert (TT : forall m, In m l -> is_table n nb m).
  { intros m Hm. apply In_nth_error in Hm. destruct Hm as [k Hk]. assert (Hkl : (k < List.length l)%nat) by (apply nth_error_Some; congruence).
    destruct (nth_error (i_files_v i) k) as [f|] eqn:Ef; [|exfalso; apply nth_error_None in Ef; lia]. destruct (V k f ltac:(lia) Ef) as [m' [Em' [T' _]]]. rewrite Hk in Em'. injection Em' as <-. exact T'. }
  assert (Mv : get_shift_matrix_volume harmonic polyfit i = Some l).
  { unfold get_shift_matrix_volume. rewrite HH, Hr, (Fit reference), Eref, E. apply (stack_ok n nb); assumption. }
  assert (SV : forall q b, (q < n)%nat -> (b < nb)%nat -> series l q b = shifts_v polyfit N q b).
  { intros q b Hq Hbb. unfold shifts_v. change (f_files_v N) with (map (fun (f : qfile) (q b : nat) => nth b (nth q (map fe_frequencies f) []) 0) (i_files_v i)). rewrite map_map. apply (nth_ext _ _ 0 0); [unfold series; rewrite !map_length; transitivity (List.length (i_volumes i)); [exact Ll|exact Lv]|]. intros k Hk. unfold series in Hk. rewrite map_length in Hk.
    destruct (nth_error (i_files_v i) k) as [f|] eqn:Ef; [|exfalso; apply nth_error_None in Ef; lia]. destruct (V k f ltac:(lia) Ef) as [m [Em [_ Vm]]].
    transitivity (at2 m q b); [apply nth_error_nth; apply nth_series; exact Em|]. rewrite (Vm q b Hq Hbb), (Vr q b Hq Hbb). symmetry. apply nth_error_nth.
    exact (map_nth_error (fun f : qfile => nth b (nth q (map fe_frequencies f) []) 0 - QhaModel.reference polyfit N q b) k (i_files_v i) Ef). }
  set (w := fun q b => match interp (combine (i_volumes i) (shifts_v polyfit N q b)) v with Some x => x | None => 0 end).
  assert (Ls : forall q b, List.length (shifts_v polyfit N q b) = List.length (i_volumes i)) by (intros q b; unfold shifts_v, N, numbers; cbn [f_files_v]; rewrite !map_length; symmetry; exact Lv).
  assert (Iv : get_interpolated_shifts_volume harmonic polyfit interp i v = Some (tabulate n nb w)).
  { unfold get_interpolated_shifts_volume. rewrite Mv. destruct l as [|m l]; [exfalso; destruct (i_volumes i); [contradiction|cbn in Ll; lia]|]. apply evaluate_ok; [exact Hn|exact TT|].
    intros q b Hq Hbb. rewrite (SV q b Hq Hbb). unfold w. destruct (interp (combine (i_volumes i) (shifts_v polyfit N q b)) v) eqn:X; [reflexivity|]. exfalso. exact (HI _ (Ls q b) X). }
  destruct (plus_array_table n nb (tabulate n nb (fitted_t polyfit N t)) (tabulate n nb w) (tabulate_table _ _ _) (tabulate_table _ _ _)) as [s [Es [Ts Vs]]].
  destruct (plus_array_table n nb h s Th Ts) as [table [Et [Tt Vt]]].
  exists table. split; [unfold get_total_frequencies; rewrite (Fit t), Iv, HH, Es; exact Et|]. split; [exact Tt|].
  intros q b Hq Hbb. change (nth b (nth q table []) 0) with (at2 table q b). rewrite (Vt q b Hq Hbb), (Vs q b Hq Hbb), !at2_tabulate by assumption.
  unfold total_frequency, get_total_shifts. unfold interpolated_v. change (f_volumes N) with (i_volumes i). unfold w.
  destruct (interp (combine (i_volumes i) (shifts_v polyfit N q b)) v) eqn:X; [|exfalso; exact (HI _ (Ls q b) X)]. reflexivity.
Qed.
(** and the script runs, up to the last temperature of the range, if the list of temperatures ends above tmin and the volumes can be interpolated *)
Lemma range_nonempty i t0 : i_tmin i = Some t0 -> t0 < last (i_temperatures i) 0 -> range_of i <> [].
Proof.
  intros H0 Hl. unfold range_of, get_temperature_range. cbn [f_tmin f_tmax f_temperatures]. rewrite H0. set (x := last (i_temperatures i) 0) in *. unfold arange_len.
  assert (A := archimed ((x - t0) / 10)). assert (U : (0 < up ((x - t0) / 10))%Z) by (apply lt_IZR; lra).
  destruct (Z.to_nat (up ((x - t0) / 10))) eqn:E; [exfalso; lia|]. cbn. destruct (Rlt_dec t0 x); [discriminate|contradiction].
Qed.
Theorem C128_runs_partial : forall (P : Type) (thermal : list (list R) -> R -> P) n nb i file0 reference t0, (1 <= n)%nat -> branches harmonic nb -> nth_error (i_files_t i) 0 = Some file0 ->
  (forall f, In f (i_files_t i ++ i_files_v i) -> complete n nb f) -> i_reference i = Some reference -> i_volumes i <> [] ->
  List.length (i_temperatures i) = List.length (i_files_t i) -> List.length (i_volumes i) = List.length (i_files_v i) ->
  (forall y v, List.length y = List.length (i_volumes i) -> In v (i_volumes i) -> interp (combine (i_volumes i) y) v <> None) ->
  i_tmin i = Some t0 -> t0 < last (i_temperatures i) 0 ->
  exists table t_max, run harmonic polyfit interp thermal i = Some (table, t_max) /\ t_max = last (range_of i) 0 /\
    forall a b v t, nth_error (i_volumes i) a = Some v -> nth_error (range_of i) b = Some t ->
      exists row frequencies, nth_error table a = Some row /\ get_total_frequencies harmonic polyfit interp i t v = Some frequencies /\ nth_error row b = Some (thermal frequencies t).
Proof.
  intros P thermal n nb i file0 reference t0 Hn Hb H0 Hc Hr Hv L Lv HI Ht Hl.
  set (F := fun t v => match get_total_frequencies harmonic polyfit interp i t v with Some f => f | None => [] end).
  assert (HF : forall t v, In v (i_volumes i) -> get_total_frequencies harmonic polyfit interp i t v = Some (F t v)).
  { intros t v Hin. destruct (C128_consistent_input n nb i file0 reference t v Hn Hb H0 Hc Hr Hv L Lv (fun y Hy => HI y v Hy Hin)) as [table [E _]]. unfold F. rewrite E. reflexivity. }
  assert (Rn := range_nonempty i t0 Ht Hl). exists (map (fun v => map (fun t => thermal (F t v) t) (range_of i)) (i_volumes i)), (last (range_of i) 0). split; [|split; [reflexivity|]].
  - unfold run. rewrite (sequence_map _ (fun v => map (fun t => thermal (F t v) t) (range_of i)) (i_volumes i)).
    + destruct (exists_last Rn) as [pre [x Ex]]. rewrite Ex. rewrite rev_unit, last_last. reflexivity.
    + intros v Hin. apply (sequence_map _ (fun t => thermal (F t v) t)). intros t _. rewrite (HF t v Hin). reflexivity.
  - intros a b v t Ha Hbb. exists (map (fun t => thermal (F t v) t) (range_of i)), (F t v). split; [exact (map_nth_error (fun v => map (fun t => thermal (F t v) t) (range_of i)) _ _ Ha)|].
    split; [apply HF; eapply nth_error_In; eauto|]. exact (map_nth_error (fun t => thermal (F t v) t) _ _ Hbb).
Qed.
End C128.
Print Assumptions C128_row_by_row.
Print Assumptions C128_own_shifts_partial.
Print Assumptions C128_own_shifts_refuted.
Print Assumptions C128_size_partial.
Print Assumptions C128_ragged_refused.
Print Assumptions C128_single_entry_refuted.
Print Assumptions C128_missing_file.
Print Assumptions C128_missing_volume_file.
Print Assumptions C128_surplus_refuted.
Print Assumptions C128_listing_order_partial.
Print Assumptions C128_last_listed_refuted.
Print Assumptions C128_reference_required_refuted.
Print Assumptions C128_consistent_input.
Print Assumptions C128_runs_partial.
(** a case: one branch, harmonic frequency 4 + 2 x at the wave vector (x, 0, 0), files at 300 and 400 whose second one lists the two wave vectors in the other order *)
Definition case_harmonic (q : vec) : list R := [4 + 2 * vx q].
Definition gamma := V3 0 0 0. Definition edge := V3 (1/2) 0 0.
Definition file300 := [MkFE gamma [4.5]; MkFE edge [5.5]].
Definition file400 := [MkFE edge [6]; MkFE gamma [4.75]].
Definition case_inputs := MkI [file300; file400] [file300; file400] [300; 400] [10; 11] (Some 300) 1 (Some 200).
Example C128_nonvacuous : branches case_harmonic 1 /\ (forall f, In f (i_files_t case_inputs ++ i_files_v case_inputs) -> complete 2 1 f) /\
  own_shift case_harmonic (MkFE edge [6]) 0 = 1 /\
  (exists m, get_shift_matrix_temperature case_harmonic case_inputs = Some m /\ nth_error (series m 0 0) 1 = Some 2) /\
  200 < last (i_temperatures case_inputs) 0 /\
  (exists m, get_shift_matrix_temperature case_harmonic (MkI [file300; rev file400] [] [300; 400] [] None 1 None) = Some m /\ nth_error (series m 1 0) 1 = Some 1) /\
  orderless (fun _ y _ _ => fold_right Rplus 0 y).
Proof.
  assert (B : branches case_harmonic 1) by (intros q; reflexivity).
  assert (Cc : forall f, In f (i_files_t case_inputs ++ i_files_v case_inputs) -> complete 2 1 f).
  { intros f Hf. cbn in Hf. repeat destruct Hf as [<-|Hf]; try contradiction; split; try reflexivity; intros e He; cbn in He; repeat destruct He as [<-|He]; try contradiction; reflexivity. }
  split; [exact B|]. split; [exact Cc|]. split; [unfold own_shift, case_harmonic, edge; cbn; lra|]. split; [|split; [cbn; lra|split]].
  - destruct (C128_row_by_row case_harmonic 2 1 case_inputs file300 ltac:(lia) B eq_refl ltac:(intros f Hf; apply Cc; apply in_or_app; left; exact Hf) ltac:(cbn; lia)) as [m [E V]].
    exists m. split; [exact E|]. rewrite (V 1%nat file400 0%nat (MkFE edge [6]) (MkFE gamma [4.5]) 0%nat ltac:(cbn; lia) eq_refl eq_refl eq_refl ltac:(lia)). f_equal. unfold case_harmonic, gamma. cbn. lra.
  - set (i := MkI [file300; rev file400] [] [300; 400] [] None 1 None).
    assert (Ci : forall f, In f (i_files_t i) -> complete 2 1 f). { intros f Hf. cbn in Hf. repeat destruct Hf as [<-|Hf]; try contradiction; split; try reflexivity; intros e He; cbn in He; repeat destruct He as [<-|He]; try contradiction; reflexivity. }
    destruct (C128_own_shifts_partial case_harmonic 2 1 i file300 ltac:(lia) B eq_refl Ci) as [m [E V]].
    + intros f Hf. cbn in Hf. repeat destruct Hf as [<-|Hf]; try contradiction; reflexivity.
    + cbn. lia.
    + exists m. split; [exact E|]. rewrite (V 1%nat (rev file400) 1%nat (MkFE edge [6]) 0%nat ltac:(cbn; lia) eq_refl eq_refl ltac:(lia)). f_equal. unfold own_shift, case_harmonic, edge. cbn. lra.
  - intros x y x' y' d t Lx Lx' HP. assert (S : forall a b : list R, List.length a = List.length b -> map snd (combine a b) = b).
    { clear. induction a as [|u a IH]; intros [|w b] H; try discriminate; [reflexivity|]. cbn. rewrite IH; [reflexivity|cbn in H; lia]. }
    assert (P2 := Permutation_map snd HP). rewrite !S in P2 by assumption. clear -P2. induction P2; cbn; lra.
Qed.
