(** C117: an analysis that failed or was interrupted leaves nothing behind that a later request returns as
    its result. *)
From Verif Require Import FullSpectrumModel FullSpectrumSpec FullSpectrumProofs FailureModel.
From Coq Require Import Lra.
Open Scope R_scope.

Section Spec.
Context {col : Type} (nf : nat) (power : col -> list R) (v : varray col) (vq : list col) (fit : R).
(** What each request has to answer: the full spectrum, one value per frequency, sum over atoms and coordinates; the partial spectra,
    one row per frequency and in it one value per atom, sum over the three coordinates; one spectrum per mode; the temperature. *)
Definition right (r : request) (a : answer) : Prop :=
  match r with
  | Full => exists x, a = Spectrum (Vec x) /\ length x = nf /\
      forall k, (k < nf)%nat -> nth k x 0 = double_sum (seq 0 (natoms v)) (seq 0 (ndims v)) (fun i j => nth k (power (at_ v i j)) 0)
  | Partials => exists m, a = Spectrum (Mat m) /\ length m = nf /\
      forall k i, (k < nf)%nat -> (i < natoms v)%nat ->
        nth i (nth k m []) 0 = nth k (power (at_ v i 0)) 0 + nth k (power (at_ v i 1)) 0 + nth k (power (at_ v i 2)) 0
  | Phonon => exists m, a = Spectrum (Mat m) /\ length m = nf /\
      forall k i d, (k < nf)%nat -> (i < length vq)%nat -> nth i (nth k m []) 0 = nth k (power (nth i vq d)) 0
  | Temperature => a = Temp fit
  end.
End Spec.
Definition never : nat -> bool := fun _ => false.

Section Proofs.
Context {col : Type} (nf : nat) (power : col -> list R) (v : varray col) (vq : list col) (fit : R).
Notation value := (value col power v).
Notation spectra := (spectra col nf power).
Definition row_sums (js : list nat) : list (list R) :=
  map (fun k => map (fun i => total (map (fun j => nth k (power (at_ v i j)) 0) js)) (seq 0 (natoms v))) (seq 0 nf).

Lemma right_full : right nf power v vq fit Full (Spectrum (Vec (map value (seq 0 nf)))).
Proof.
  exists (map value (seq 0 nf)). split; [reflexivity|]. split; [rewrite map_length, seq_length; reflexivity|]. intros k Hk.
  rewrite (nth_indep _ 0 (value 0)) by (rewrite map_length, seq_length; lia). rewrite map_nth, seq_nth by lia. reflexivity.
Qed.
Lemma nth_rows (g : nat -> list R) k : (k < nf)%nat -> nth k (map g (seq 0 nf)) [] = g k.
Proof. intros H. rewrite (nth_indep _ [] (g 0%nat)) by (rewrite map_length, seq_length; lia). rewrite map_nth, seq_nth by lia. reflexivity. Qed.
Lemma right_phonon : right nf power v vq fit Phonon (Spectrum (Mat (spectra vq))).
Proof.
  exists (spectra vq). split; [reflexivity|]. unfold FullSpectrumModel.spectra. split; [rewrite map_length, seq_length; reflexivity|]. intros k i d Hk Hi.
  rewrite nth_rows by lia. rewrite (nth_indep _ 0 (nth k (power d) 0)) by (rewrite map_length; lia). apply (map_nth (fun c => nth k (power c) 0)).
Qed.
Lemma right_partials : right nf power v vq fit Partials (Spectrum (Mat (row_sums [0;1;2]%nat))).
Proof.
  exists (row_sums [0;1;2]%nat). split; [reflexivity|]. unfold row_sums. split; [rewrite map_length, seq_length; reflexivity|]. intros k i Hk Hi.
  rewrite nth_rows by lia. set (g := fun i => total _).
  rewrite (nth_indep _ 0 (g 0%nat)) by (rewrite map_length, seq_length; lia). rewrite map_nth, seq_nth by lia. cbn. ring.
Qed.
Lemma row_sums_snoc js j : add_matrix (row_sums js) (spectra (map (fun i => at_ v i j) (seq 0 (natoms v)))) = row_sums (js ++ [j]).
Proof.
  unfold row_sums, FullSpectrumModel.spectra. rewrite add_matrix_rows. apply map_ext. intros k. rewrite map_map, add_rows_map. apply map_ext. intros i.
  rewrite map_app, total_app. cbn. ring.
Qed.
Lemma row_sums_one j : spectra (map (fun i => at_ v i j) (seq 0 (natoms v))) = row_sums [j].
Proof. unfold row_sums, FullSpectrumModel.spectra. apply map_ext. intros k. rewrite map_map. apply map_ext. intros i. cbn. ring. Qed.
(** running sums of columns *)
Definition column_sums (l : list (nat * nat)) : list (list R) :=
  map (fun k => [total (map (fun p => nth k (power (at_ v (fst p) (snd p))) 0) l)]) (seq 0 nf).
Lemma column_sums_nil : repeat [0] nf = column_sums [].
Proof. unfold column_sums. cbn. generalize 0%nat. induction nf as [|n IH]; intros s; cbn; [reflexivity|]. rewrite (IH (S s)). reflexivity. Qed.
Lemma column_sums_snoc l p : add_matrix (column_sums l) (spectra [at_ v (fst p) (snd p)]) = column_sums (l ++ [p]).
Proof.
  unfold column_sums, FullSpectrumModel.spectra. rewrite (add_matrix_col col power nf). apply map_ext. intros k. f_equal. rewrite map_app, total_app. cbn. ring.
Qed.
Lemma column_sums_all : sum_axis1 (column_sums (list_prod (seq 0 (natoms v)) (seq 0 (ndims v)))) = map value (seq 0 nf).
Proof.
  unfold column_sums, sum_axis1. rewrite map_map. apply map_ext. intros k. unfold FullSpectrumProofs.value. rewrite double_flat. cbn. ring.
Qed.
End Proofs.

(** *** What holds *)
(** Without failures and interruptions every answer of every session is right, silent or not. *)
Section Good.
Context {col : Type} (nf : nat) (power : col -> list R) (v : varray col) (vq : list col) (fit : R).
Notation ask ok := (ask col nf power ok never v vq fit).
Notation session ok := (session col nf power ok never v vq fit).
Definition good_direct (s : st) : Prop := direct s = None \/ direct s = Some (Vec (map (value col power v) (seq 0 nf))).
Definition good_phonon (s : st) : Prop := phonon s = None \/ phonon s = Some (spectra col nf power vq).
Definition good_partials (s : st) : Prop := partials s = None \/ partials s = Some (row_sums nf power v [0;1;2]%nat).
Definition good_temp (s : st) : Prop := temperature s = None \/ temperature s = Some fit.

Lemma step_ok {A} (x : A) f s : bind (kernel never x) (fun x => assign never (f x)) s = (Some tt, tick (f x (tick s))).
Proof. reflexivity. Qed.
Lemma coordinate_ok j f s : (j < ndims v)%nat ->
  bind (coordinate col v j) (fun cols => bind (kernel never (spectra col nf power cols)) (fun x => assign never (f x))) s =
  (Some tt, tick (f (spectra col nf power (map (fun i => at_ v i j) (seq 0 (natoms v)))) (tick s))).
Proof. intros H. unfold bind at 1, coordinate. apply Nat.ltb_lt in H. rewrite H. reflexivity. Qed.
Lemma loop_ok l done s : direct s = Some (Mat (column_sums nf power v done)) ->
  exists s', for_each (fun ij => bind (kernel never (spectra col nf power [at_ v (fst ij) (snd ij)])) (fun x => assign never (add_direct x))) l s = (Some tt, s') /\
  direct s' = Some (Mat (column_sums nf power v (done ++ l))) /\ silent s' = silent s /\ partials s' = partials s /\ phonon s' = phonon s /\ temperature s' = temperature s.
Proof.
  revert done s. induction l as [|p l IH]; intros done s H.
  - exists s. rewrite app_nil_r. repeat split; try assumption.
  - cbn [for_each]. unfold bind at 1. rewrite step_ok.
    replace (add_direct (spectra col nf power [at_ v (fst p) (snd p)]) (tick s)) with (put_direct (Mat (column_sums nf power v (done ++ [p]))) (tick s)).
    2:{ unfold add_direct. cbn [tick direct]. rewrite H, column_sums_snoc. reflexivity. }
    destruct (IH (done ++ [p]) (tick (put_direct (Mat (column_sums nf power v (done ++ [p]))) (tick s))) eq_refl) as (s' & E & D & A). exists s'.
    rewrite E, D, <- app_assoc. split; [reflexivity|]. split; [reflexivity|]. exact A.
Qed.
Lemma full_ok s : good_direct s -> exists s', get_full col nf power never never v s = (Some (Vec (map (value col power v) (seq 0 nf))), s') /\
  direct s' = Some (Vec (map (value col power v) (seq 0 nf))) /\ silent s' = silent s /\ partials s' = partials s /\ phonon s' = phonon s /\ temperature s' = temperature s.
Proof.
  intros [H|H]; unfold get_full, bind at 1, gets at 1; rewrite H.
  - unfold bind at 1, gets at 1. destruct (silent s) eqn:Es.
    + unfold bind at 1. unfold bind at 1. unfold assign at 1, never at 1. rewrite column_sums_nil with (power := power) (v := v).
      destruct (loop_ok (list_prod (seq 0 (natoms v)) (seq 0 (ndims v))) [] (tick (put_direct (Mat (column_sums nf power v [])) s)) eq_refl) as (s' & E & D & A).
      rewrite E. unfold bind at 1, assign at 1, never at 1. unfold sum_direct at 1. rewrite D. cbn [app]. rewrite column_sums_all.
      eexists. split; [reflexivity|]. cbn. cbn in A. rewrite Es in A. repeat split; apply A.
    + unfold bind at 1, kernel at 1, never at 1. cbn. rewrite (spectra_reshaped col nf power v). eexists. split; [reflexivity|]. cbn. rewrite Es. repeat split.
  - exists s. repeat split; auto.
Qed.
Lemma partials_ok s : ndims v = 3%nat -> good_partials s -> exists s', get_partials col nf power never never v s = (Some (row_sums nf power v [0;1;2]%nat), s') /\
  partials s' = Some (row_sums nf power v [0;1;2]%nat) /\ silent s' = silent s /\ direct s' = direct s /\ phonon s' = phonon s /\ temperature s' = temperature s.
Proof.
  intros N [H|H]; unfold get_partials, bind at 1, gets at 1; rewrite H.
  - unfold bind at 1. rewrite coordinate_ok by lia. rewrite row_sums_one. cbn [for_each]. unfold bind at 1. unfold bind at 1. rewrite coordinate_ok by lia.
    change (add_partials ?m (tick (tick (put_partials ?d ?s)))) with (tick (put_partials (add_matrix d m) (tick s))). rewrite row_sums_snoc. cbn [app].
    unfold bind at 1. rewrite coordinate_ok by lia. unfold add_partials at 1. cbn [tick put_partials partials]. rewrite row_sums_snoc. cbn [app].
    eexists. split; [reflexivity|]. repeat split.
  - exists s. repeat split; auto.
Qed.
Lemma phonon_ok s : good_phonon s -> exists s', get_phonon col nf power never never vq s = (Some (spectra col nf power vq), s') /\
  phonon s' = Some (spectra col nf power vq) /\ silent s' = silent s /\ direct s' = direct s /\ partials s' = partials s /\ temperature s' = temperature s.
Proof. intros [H|H]; unfold get_phonon, bind at 1, gets at 1; rewrite H; eexists; (split; [reflexivity|]); repeat split; auto. Qed.
Lemma temp_ok s : good_temp s -> exists s', get_temp never never fit s = (Some fit, s') /\
  temperature s' = Some fit /\ silent s' = silent s /\ direct s' = direct s /\ partials s' = partials s /\ phonon s' = phonon s.
Proof.
  intros [H|H]; unfold get_temp, bind at 1, gets at 1; rewrite H.
  - eexists. split; [reflexivity|]. repeat split.
  - destruct (Req_EM_T fit 0); eexists; (split; [reflexivity|]); repeat split; auto.
Qed.
Definition good s := good_direct s /\ good_phonon s /\ good_partials s /\ good_temp s.
Lemma good_ask r s : ndims v = 3%nat -> good s -> good (snd (ask never r s)) /\ exists a, fst (ask never r s) = Some a /\ right nf power v vq fit r a.
Proof.
  intros N (A & B & C & D). destruct r; cbn [FailureModel.ask]; unfold bind at 1 2.
  - destruct (full_ok s A) as (s' & E & P & _ & Q1 & Q2 & Q3). rewrite E. cbn. unfold good, good_direct, good_phonon, good_partials, good_temp in *. rewrite P, Q1, Q2, Q3.
    split; [auto 10|]. eexists. split; [reflexivity|exact (right_full nf power v vq fit)].
  - destruct (partials_ok s N C) as (s' & E & P & _ & Q1 & Q2 & Q3). rewrite E. cbn. unfold good, good_direct, good_phonon, good_partials, good_temp in *. rewrite P, Q1, Q2, Q3.
    split; [auto 10|]. eexists. split; [reflexivity|exact (right_partials nf power v vq fit)].
  - destruct (phonon_ok s B) as (s' & E & P & _ & Q1 & Q2 & Q3). rewrite E. cbn. unfold good, good_direct, good_phonon, good_partials, good_temp in *. rewrite P, Q1, Q2, Q3.
    split; [auto 10|]. eexists. split; [reflexivity|exact (right_phonon nf power v vq fit)].
  - destruct (temp_ok s D) as (s' & E & P & _ & Q1 & Q2 & Q3). rewrite E. cbn. unfold good, good_direct, good_phonon, good_partials, good_temp in *. rewrite P, Q1, Q2, Q3.
    split; [auto 10|]. eexists. split; [reflexivity|reflexivity].
Qed.
Lemma good_session h s : ndims v = 3%nat -> good s -> good (session never h s).
Proof. intros N. revert s. induction h as [|r h IH]; intros s G; [exact G|]. apply IH. apply good_ask; assumption. Qed.
End Good.

Theorem C117_undisturbed : forall (col : Type) (nf : nat) (power : col -> list R) v vq fit sil h r, ndims v = 3%nat ->
  exists a s', ask col nf power never never v vq fit r (session col nf power never never v vq fit h (fresh sil)) = (Some a, s') /\ right nf power v vq fit r a.
Proof.
  intros col nf power v vq fit sil h r N.
  assert (G : good nf power v vq fit (fresh sil)) by (unfold good, good_direct, good_phonon, good_partials, good_temp; cbn; auto).
  pose proof (good_session nf power v vq fit h _ N G) as G'. destruct (good_ask nf power v vq fit r _ N G') as (_ & a & E & C).
  exists a, (snd (ask col nf power never never v vq fit r (session col nf power never never v vq fit h (fresh sil)))). split; [|exact C]. rewrite <- E. apply surjective_pairing.
Qed.
Print Assumptions C117_undisturbed.

(** Whatever routine fails and whenever, with the screen output on: no full spectrum and no phonon spectrum is ever returned but the right one,
    in any session made of spectrum requests. *)
Section Screen.
Context {col : Type} (nf : nat) (power : col -> list R) (v : varray col) (vq : list col) (fit : R) (fails : nat -> bool).
Definition safe s := silent s = false /\ good_direct nf power v s /\ good_phonon nf power vq s.
Notation ask := (ask col nf power fails never v vq fit).
Definition frame {A} (m : M A) : Prop := forall s, silent (snd (m s)) = silent s /\ direct (snd (m s)) = direct s /\ phonon (snd (m s)) = phonon s.
Lemma frame_bind {A B} (m : M A) (f : A -> M B) : frame m -> (forall a, frame (f a)) -> frame (bind m f).
Proof.
  intros Hm Hf s. specialize (Hm s). unfold bind. destruct (m s) as [[a|] s1]; cbn [snd] in *; [|exact Hm].
  specialize (Hf a s1). destruct Hm as (a1 & a2 & a3), Hf as (b1 & b2 & b3). rewrite b1, b2, b3. auto.
Qed.
Lemma frame_ret {A} (a : A) : frame (ret a). Proof. intros s. cbn. auto. Qed.
Lemma frame_raise {A} : frame (@raise A). Proof. intros s. cbn. auto. Qed.
Lemma frame_gets {A} (f : st -> A) : frame (gets f). Proof. intros s. cbn. auto. Qed.
Lemma frame_kernel {A} (a : A) : frame (kernel fails a). Proof. intros s. cbn. auto. Qed.
Lemma frame_add x : frame (assign never (add_partials x)). Proof. intros s. unfold assign, never, add_partials. destruct (partials s); cbn; auto. Qed.
Lemma frame_each {A} (f : A -> M unit) l : (forall a, frame (f a)) -> frame (for_each f l).
Proof. intros H. induction l as [|a l IH]; [apply frame_ret|]. cbn [for_each]. apply frame_bind; auto. Qed.
Lemma frame_coordinate j : frame (coordinate col v j). Proof. unfold coordinate. destruct (j <? ndims v)%nat; [apply frame_ret|apply frame_raise]. Qed.
Lemma partials_frame s : let s' := snd (get_partials col nf power fails never v s) in silent s' = silent s /\ direct s' = direct s /\ phonon s' = phonon s.
Proof.
  cbv zeta. revert s. change (frame (get_partials col nf power fails never v)). unfold get_partials. apply frame_bind; [apply frame_gets|]. intros [x|]; [apply frame_ret|].
  apply frame_bind; [|intros _; apply frame_bind; [|intros _; apply frame_bind; [apply frame_gets|intros [x|]; [apply frame_ret|apply frame_raise]]]].
  - apply frame_bind; [apply frame_coordinate|intros cols; apply frame_bind; [apply frame_kernel|]]. intros x s. cbn. auto.
  - apply frame_each. intros j. apply frame_bind; [apply frame_coordinate|intros cols; apply frame_bind; [apply frame_kernel|]]. intros x. apply frame_add.
Qed.
Lemma safe_ask r s : r <> Temperature -> safe s -> safe (snd (ask r s)) /\ forall a, r <> Partials -> fst (ask r s) = Some a -> right nf power v vq fit r a.
Proof.
  intros Hr (Sil & D & P). destruct r; cbn [FailureModel.ask]; unfold bind at 1 2.
  - assert (F : forall o, o = get_full col nf power fails never v s -> (fst o = None \/ fst o = Some (Vec (map (value col power v) (seq 0 nf)))) /\ safe (snd o)).
    { intros o ->. unfold get_full. destruct D as [D|D].
      - unfold bind, kernel, gets. rewrite D, Sil. destruct (fails (clock s)); cbn.
        + unfold safe, good_direct, good_phonon in *; cbn. auto.
        + rewrite (spectra_reshaped col nf power v). unfold safe, good_direct, good_phonon in *; cbn. auto.
      - unfold bind, gets. rewrite D. cbn. unfold safe, good_direct, good_phonon in *; auto. }
    specialize (F _ eq_refl). destruct (get_full col nf power fails never v s) as [o s']. destruct F as [[F|F] G]; cbn [fst snd] in F, G; subst o; (split; [exact G|]); intros a _ E; cbn in E; [discriminate|].
    injection E as <-. exact (right_full nf power v vq fit).
  - pose proof (partials_frame s) as F. cbv zeta in F. destruct (get_partials col nf power fails never v s) as [[x|] s']; cbn in F |- *; destruct F as (F1 & F2 & F3);
      (split; [|intros a H _; congruence]); unfold safe, good_direct, good_phonon in *; cbn; rewrite F1, F2, F3; auto.
  - assert (F : forall o, o = get_phonon col nf power fails never vq s -> (fst o = None \/ fst o = Some (spectra col nf power vq)) /\ safe (snd o)).
    { intros o ->. unfold get_phonon, bind, gets. destruct P as [P|P]; rewrite P.
      - unfold kernel. destruct (fails (clock s)); cbn; unfold safe, good_direct, good_phonon in *; cbn; auto.
      - cbn. unfold safe, good_direct, good_phonon in *; auto. }
    specialize (F _ eq_refl). destruct (get_phonon col nf power fails never vq s) as [o s']. destruct F as [[F|F] G]; cbn [fst snd] in F, G; subst o; (split; [exact G|]); intros a _ E; cbn in E; [discriminate|].
    injection E as <-. exact (right_phonon nf power v vq fit).
  - congruence.
Qed.
Lemma safe_session h s : ~ In Temperature h -> safe s -> safe (session col nf power fails never v vq fit h s).
Proof.
  revert s. induction h as [|r h IH]; intros s H G; [exact G|]. apply IH; [intros C; apply H; right; exact C|]. apply safe_ask; [|exact G]. intros ->. apply H. left. reflexivity.
Qed.
End Screen.
Theorem C117_screen_partial : forall (col : Type) (nf : nat) (power : col -> list R) v vq fit (fails : nat -> bool) h r a s',
  ~ In Temperature h -> r = Full \/ r = Phonon ->
  ask col nf power fails never v vq fit r (session col nf power fails never v vq fit h (fresh false)) = (Some a, s') -> right nf power v vq fit r a.
Proof.
  intros col nf power v vq fit fails h r a s' H Hr E.
  assert (G : safe nf power v vq (fresh false)) by (unfold safe, good_direct, good_phonon; cbn; auto).
  pose proof (safe_session nf power v vq fit fails h _ H G) as G'.
  refine (proj2 (safe_ask nf power v vq fit fails r _ _ G') a _ _); [destruct Hr as [-> | ->]; discriminate|destruct Hr as [-> | ->]; discriminate|].
  rewrite E. reflexivity.
Qed.
Print Assumptions C117_screen_partial.

(** *** What does not hold *)
Section Bad.
Context {col : Type} (nf : nat) (power : col -> list R) (v : varray col) (vq : list col) (fit : R) (fails : nat -> bool).
Lemma loop_bad l : forall m done s, (m < length l)%nat -> direct s = Some (Mat (column_sums nf power v done)) ->
  (forall i, (i < m)%nat -> fails (clock s + 2 * i)%nat = false) -> fails (clock s + 2 * m)%nat = true ->
  exists s', for_each (fun ij => bind (kernel fails (spectra col nf power [at_ v (fst ij) (snd ij)])) (fun x => assign never (add_direct x))) l s = (None, s') /\
  direct s' = Some (Mat (column_sums nf power v (done ++ firstn m l))).
Proof.
  induction l as [|p l IH]; intros m done s Hm D Hok Hbad; [cbn in Hm; lia|]. cbn [for_each]. unfold bind at 1 2, kernel at 1. destruct m as [|m].
  - rewrite Nat.mul_0_r, Nat.add_0_r in Hbad. rewrite Hbad. eexists. split; [reflexivity|]. cbn. rewrite app_nil_r. exact D.
  - pose proof (Hok 0%nat ltac:(lia)) as H0. rewrite Nat.mul_0_r, Nat.add_0_r in H0. rewrite H0.
    unfold assign at 1, never at 1.
    replace (add_direct (spectra col nf power [at_ v (fst p) (snd p)]) (tick s)) with (put_direct (Mat (column_sums nf power v (done ++ [p]))) (tick s)).
    2:{ unfold add_direct. cbn [tick direct]. rewrite D, column_sums_snoc. reflexivity. }
    destruct (IH m (done ++ [p]) (tick (put_direct (Mat (column_sums nf power v (done ++ [p]))) (tick s)))) as (s' & E & D').
    + cbn in Hm. lia.
    + reflexivity.
    + intros i Hi. cbn [clock tick put_direct]. rewrite <- (Hok (S i) ltac:(lia)). f_equal. lia.
    + cbn [clock tick put_direct]. rewrite <- Hbad. f_equal. lia.
    + exists s'. cbn [fst snd] in E. rewrite E. split; [reflexivity|]. rewrite D', <- app_assoc. reflexivity.
Qed.
Lemma coordinate_good j f s : (j < ndims v)%nat -> fails (clock s) = false ->
  bind (coordinate col v j) (fun cols => bind (kernel fails (spectra col nf power cols)) (fun x => assign never (f x))) s =
  (Some tt, tick (f (spectra col nf power (map (fun i => at_ v i j) (seq 0 (natoms v)))) (tick s))).
Proof. intros H G. unfold bind, coordinate, kernel. apply Nat.ltb_lt in H. rewrite H. cbn. rewrite G. reflexivity. Qed.
Lemma coordinate_bad j f s : (j < ndims v)%nat -> fails (clock s) = true ->
  bind (coordinate col v j) (fun cols => bind (kernel fails (spectra col nf power cols)) (fun x => assign never (f x))) s = (None, tick s).
Proof. intros H G. unfold bind, coordinate, kernel. apply Nat.ltb_lt in H. rewrite H. cbn. rewrite G. reflexivity. Qed.
Lemma add_step d m t s : add_partials m (tick (tick (put_partials d t))) = s -> s = tick (tick (put_partials (add_matrix d m) t)).
Proof. intros <-. reflexivity. Qed.
Lemma cached_full s x : direct s = Some x -> ask col nf power fails never v vq fit Full s = (Some (Spectrum x), s).
Proof. intros H. cbn [ask]. unfold bind at 1, get_full, bind at 1, gets at 1. rewrite H. reflexivity. Qed.
End Bad.

(** In silent mode: whatever trajectory, and whichever of the column spectra fails (the m-th, the first included), the failed request is
    remembered, and the next one returns at once the sum of the m columns that were finished - and as a table with one column, not a curve. *)
Theorem C117_silent_refuted : forall (col : Type) (nf : nat) (power : col -> list R) v vq fit (fails : nat -> bool) m,
  (m < natoms v * ndims v)%nat -> (forall i, (i < m)%nat -> fails (1 + 2 * i)%nat = false) -> fails (1 + 2 * m)%nat = true ->
  exists s1 M, ask col nf power fails never v vq fit Full (fresh true) = (None, s1) /\
    ask col nf power fails never v vq fit Full s1 = (Some (Spectrum (Mat M)), s1) /\
    (forall k, (k < nf)%nat -> nth k M [] =
       [total (map (fun p => nth k (power (at_ v (fst p) (snd p))) 0) (firstn m (list_prod (seq 0 (natoms v)) (seq 0 (ndims v)))))]) /\
    ~ right nf power v vq fit Full (Spectrum (Mat M)).
Proof.
  intros col nf power v vq fit fails m Hm Hok Hbad.
  destruct (loop_bad nf power v fails (list_prod (seq 0 (natoms v)) (seq 0 (ndims v))) m [] (tick (put_direct (Mat (column_sums nf power v [])) (fresh true))))
    as (s1 & E & D); [rewrite prod_length, !seq_length; exact Hm|reflexivity|exact Hok|exact Hbad|].
  exists s1, (column_sums nf power v (firstn m (list_prod (seq 0 (natoms v)) (seq 0 (ndims v))))). split; [|split; [|split]].
  - cbn [ask]. unfold bind at 1, get_full, bind at 1, gets at 1. change (direct (fresh true)) with (@None array). unfold bind at 1, gets at 1. change (silent (fresh true)) with true. unfold bind at 1. unfold bind at 1.
    unfold assign at 1, never at 1. rewrite column_sums_nil with (power := power) (v := v). rewrite E. reflexivity.
  - apply cached_full. exact D.
  - intros k Hk. unfold column_sums. apply (nth_rows nf). exact Hk.
  - intros (x & C & _). discriminate C.
Qed.
Print Assumptions C117_silent_refuted.

(** For example when the routine is not there at all (its library is not installed): the first request fails, the second one, with nothing repaired,
    returns zeros. *)
Theorem C117_missing_library_refuted : forall (col : Type) (nf : nat) (power : col -> list R) v vq fit, (0 < natoms v)%nat -> (0 < ndims v)%nat ->
  exists s1 M, ask col nf power (fun _ => true) never v vq fit Full (fresh true) = (None, s1) /\
    ask col nf power (fun _ => true) never v vq fit Full s1 = (Some (Spectrum (Mat M)), s1) /\ (forall k, (k < nf)%nat -> nth k M [] = [0]).
Proof.
  intros col nf power v vq fit Ha Hd.
  destruct (C117_silent_refuted col nf power v vq fit (fun _ => true) 0) as (s1 & M & A & B & C & _); [apply Nat.mul_pos_pos; assumption|intros i Hi; lia|reflexivity|].
  exists s1, M. split; [exact A|]. split; [exact B|]. intros k Hk. rewrite (C k Hk). reflexivity.
Qed.
Print Assumptions C117_missing_library_refuted.

(** Partial spectra, silent or not: if the spectra of the second or of the third coordinate fail, the next request returns the sum over the
    coordinates before it. *)
Theorem C117_partials_refuted : forall (col : Type) (nf : nat) (power : col -> list R) v vq fit (fails : nat -> bool) sil j,
  ndims v = 3%nat -> (1 <= j <= 2)%nat -> (forall i, (i < j)%nat -> fails (2 * i)%nat = false) -> fails (2 * j)%nat = true ->
  exists s1 M, ask col nf power fails never v vq fit Partials (fresh sil) = (None, s1) /\
    ask col nf power fails never v vq fit Partials s1 = (Some (Spectrum (Mat M)), s1) /\
    (forall k i, (k < nf)%nat -> (i < natoms v)%nat -> nth i (nth k M []) 0 = total (map (fun c => nth k (power (at_ v i c)) 0) (seq 0 j))) /\
    ((exists k i, (k < nf)%nat /\ (i < natoms v)%nat /\ forall c, (c < 3)%nat -> 0 < nth k (power (at_ v i c)) 0) -> ~ right nf power v vq fit Partials (Spectrum (Mat M))).
Proof.
  intros col nf power v vq fit fails sil j N Hj Hok Hbad.
  assert (F : exists s1, ask col nf power fails never v vq fit Partials (fresh sil) = (None, s1) /\ partials s1 = Some (row_sums nf power v (seq 0 j))).
  { cbn [ask]. unfold bind at 1, get_partials, bind at 1, gets at 1. cbn [fresh partials].
    pose proof (Hok 0%nat ltac:(lia)) as H0. cbn in H0.
    fold (fresh sil). unfold bind at 1. rewrite coordinate_good; [|lia|exact H0]. rewrite row_sums_one. cbn [for_each]. unfold bind at 1. unfold bind at 1.
    assert (j = 1%nat \/ j = 2%nat) as [-> | ->] by lia.
    - rewrite coordinate_bad; [|lia|exact Hbad]. eexists. split; reflexivity.
    - rewrite coordinate_good; [|lia|exact (Hok 1%nat ltac:(lia))]. erewrite (add_step _ _ _ _ eq_refl). rewrite row_sums_snoc. cbn [app].
      unfold bind at 1. rewrite coordinate_bad; [|lia|exact Hbad]. eexists. split; reflexivity. }
  destruct F as (s1 & E & P). exists s1, (row_sums nf power v (seq 0 j)). split; [exact E|]. split; [|split].
  - cbn [ask]. unfold bind at 1, get_partials, bind at 1, gets at 1. rewrite P. reflexivity.
  - intros k i Hk Hi. unfold row_sums. rewrite (nth_rows nf) by exact Hk. set (g := fun i => total _).
    rewrite (nth_indep _ 0 (g 0%nat)) by (rewrite map_length, seq_length; lia). rewrite map_nth, seq_nth by lia. reflexivity.
  - intros (k & i & Hk & Hi & Hp) (M & EM & _ & R). specialize (R k i Hk Hi). injection EM as <-. revert R. unfold row_sums. rewrite (nth_rows nf) by exact Hk. set (g := fun i => total _).
    rewrite (nth_indep _ 0 (g 0%nat)) by (rewrite map_length, seq_length; lia). rewrite map_nth, seq_nth by lia. unfold g. rewrite Nat.add_0_l.
    pose proof (Hp 1%nat ltac:(lia)). pose proof (Hp 2%nat ltac:(lia)). assert (j = 1%nat \/ j = 2%nat) as [-> | ->] by lia; cbn [seq map total fold_right]; lra.
Qed.
Print Assumptions C117_partials_refuted.

(** With two coordinates nothing has to go wrong: the first request for the partial spectra always fails, and the second one returns the result
    - the sum over the two coordinates. *)
Theorem C117_two_coordinates : forall (col : Type) (nf : nat) (power : col -> list R) v vq fit sil, ndims v = 2%nat ->
  exists s1 M, ask col nf power never never v vq fit Partials (fresh sil) = (None, s1) /\
    ask col nf power never never v vq fit Partials s1 = (Some (Spectrum (Mat M)), s1) /\
    (forall k i, (k < nf)%nat -> (i < natoms v)%nat -> nth i (nth k M []) 0 = nth k (power (at_ v i 0)) 0 + nth k (power (at_ v i 1)) 0).
Proof.
  intros col nf power v vq fit sil N.
  assert (F : exists s1, ask col nf power never never v vq fit Partials (fresh sil) = (None, s1) /\ partials s1 = Some (row_sums nf power v [0;1]%nat)).
  { cbn [ask]. unfold bind at 1, get_partials, bind at 1, gets at 1. cbn [fresh partials]. fold (fresh sil). unfold bind at 1. rewrite coordinate_ok by lia. rewrite row_sums_one.
    cbn [for_each]. unfold bind at 1. unfold bind at 1. rewrite coordinate_ok by lia.
    erewrite (add_step _ _ _ _ eq_refl). rewrite row_sums_snoc. cbn [app].
    unfold bind at 1. unfold bind at 1, coordinate at 1. rewrite N. cbn [Nat.ltb Nat.leb raise]. eexists. split; reflexivity. }
  destruct F as (s1 & E & P). exists s1, (row_sums nf power v [0;1]%nat). split; [exact E|]. split.
  - cbn [ask]. unfold bind at 1, get_partials, bind at 1, gets at 1. rewrite P. reflexivity.
  - intros k i Hk Hi. unfold row_sums. rewrite (nth_rows nf) by exact Hk. set (g := fun i => total _).
    rewrite (nth_indep _ 0 (g 0%nat)) by (rewrite map_length, seq_length; lia). rewrite map_nth, seq_nth by lia. cbn. ring.
Qed.
Print Assumptions C117_two_coordinates.

(** An interruption between the two assignments of the screen mode leaves the table of the separate columns; the next request returns it. *)
Theorem C117_interrupt_refuted : forall (col : Type) (nf : nat) (power : col -> list R) v vq fit (interrupts : nat -> bool),
  interrupts 1%nat = false -> interrupts 2%nat = true ->
  exists s1 M, ask col nf power never interrupts v vq fit Full (fresh false) = (None, s1) /\
    ask col nf power never interrupts v vq fit Full s1 = (Some (Spectrum (Mat M)), s1) /\ ~ right nf power v vq fit Full (Spectrum (Mat M)).
Proof.
  intros col nf power v vq fit interrupts H1 H2. eexists. exists (spectra col nf power (reshaped col v)). split; [|split].
  - unfold ask, get_full, bind, assign, kernel, never, gets. cbn -[spectra]. rewrite H1. cbn -[spectra]. rewrite H2. reflexivity.
  - reflexivity.
  - intros (x & C & _). discriminate C.
Qed.
Print Assumptions C117_interrupt_refuted.

(** A temperature fit that fails leaves the program silent. *)
Theorem C117_settings_refuted : forall (col : Type) (nf : nat) (power : col -> list R) v vq fit (fails : nat -> bool), fails 1%nat = true ->
  exists s1, ask col nf power fails never v vq fit Temperature (fresh false) = (None, s1) /\ silent s1 = true.
Proof.
  intros col nf power v vq fit fails H. eexists. split.
  - unfold ask, get_temp, bind, assign, kernel, never, gets. cbn. rewrite H. reflexivity.
  - reflexivity.
Qed.
Print Assumptions C117_settings_refuted.

(** two atoms in three dimensions, three frequencies, the column (i, j) has the constant spectrum 1 + i + j *)
Definition small : varray (nat * nat) := MkV 2 3 pair.
Definition flat (c : nat * nat) : list R := repeat (INR (1 + fst c + snd c)) 3.
Example C117_nonvacuous : exists s1 M,
  ask (nat * nat) 3 flat (fun t => Nat.eqb t 5) never small [] 300 Full (fresh true) = (None, s1) /\
  ask (nat * nat) 3 flat (fun t => Nat.eqb t 5) never small [] 300 Full s1 = (Some (Spectrum (Mat M)), s1) /\ nth 1 M [] = [3] /\
  double_sum (seq 0 2) (seq 0 3) (fun i j => nth 1 (flat (i, j)) 0) = 15.
Proof.
  destruct (C117_silent_refuted (nat * nat) 3 flat small [] 300 (fun t => Nat.eqb t 5) 2) as (s1 & M & A & B & C & _);
    [cbn; lia|intros [|[|i]] Hi; [reflexivity|reflexivity|lia]|reflexivity|].
  exists s1, M. split; [exact A|]. split; [exact B|]. split; [rewrite (C 1%nat ltac:(lia)); cbn; f_equal; lra|]. cbn. lra.
Qed.
Example C117_screen_nonvacuous : exists s1 a s2,
  ask (nat * nat) 3 flat (fun t => Nat.eqb t 0) never small [(0, 0)%nat] 300 Full (fresh false) = (None, s1) /\
  ask (nat * nat) 3 flat (fun t => Nat.eqb t 0) never small [(0, 0)%nat] 300 Full s1 = (Some a, s2).
Proof. eexists. eexists. eexists. split; [reflexivity|]. reflexivity. Qed.
