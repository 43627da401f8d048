(** C121, FFT methods: a sample that is not a number is not hidden by a power spectrum (double precision). *)
From Verif Require Import MemModel MemFloatModel MemFloatProofs CorrelationModel InvalidSampleModel InvalidSampleProofs InvalidSampleProps InvalidFftModel.
From Flocq Require Import Core BinarySingleNaN.
From Coq Require Import Reals ZArith List Lia.
Import ListNotations.
Open Scope nat_scope.

(** what is asked of the Fourier transform: it keeps the length and every output depends on every input through additions and products, so
    that a number anywhere in the output certifies the whole input *)
Definition absorbing (transform : list complex64 -> list complex64) : Prop :=
  (forall x, length (transform x) = length x) /\
  (forall x k y, nth_error (transform x) k = Some y -> sample_is_number y -> forall m s, nth_error x m = Some s -> sample_is_number s).
(** what is asked of np.abs: the modulus of a complex number that has a part that is not a number is not one *)
Definition faithful (modulus : complex64 -> float64) : Prop := forall z, is_number (modulus z) -> sample_is_number z.

Lemma cadd_ok x y : sample_is_number (cadd x y) -> sample_is_number x /\ sample_is_number y.
Proof. intros [F1 F2]. unfold is_number, cadd, g_plus in *. cbn [fst snd add ieee] in *. apply plus_fin in F1 as [A [B _]]. apply plus_fin in F2 as [C [D _]]. repeat split; assumption. Qed.
Lemma ctimes_ok x y : sample_is_number (ctimes x y) -> sample_is_number x /\ sample_is_number y.
Proof.
  intros [F1 _]. unfold is_number, ctimes, g_times in *. cbn [fst sub mul ieee] in F1. apply minus_fin in F1 as [F1 [F2 _]]. apply mult_fin in F1 as [A [B _]]. apply mult_fin in F2 as [C [D _]]. repeat split; assumption.
Qed.
Lemma conj_ok x : sample_is_number (complex_conj x) -> sample_is_number x.
Proof. intros [F1 F2]. unfold is_number, complex_conj in *. cbn [fst snd] in *. rewrite is_finite_Bopp in F2. split; assumption. Qed.
Lemma cdivide_ok x n : sample_is_number (cdivide x n) -> sample_is_number x.
Proof.
  intros [F1 F2]. unfold is_number, cdivide in *. cbn [fst snd mul add sub ieee] in *. apply mult_fin in F1 as [F1 _]. apply mult_fin in F2 as [F2 _].
  apply plus_fin in F1 as [A _]. apply minus_fin in F2 as [B _]. split; assumption.
Qed.
(** a number at the end of a sum certifies all the terms *)
Lemma fold_cadd (g : nat -> option complex64) l : forall acc, sample_is_number (fold_left (fun acc j => match g j with Some t => cadd acc t | None => acc end) l acc) ->
  sample_is_number acc /\ forall j t, In j l -> g j = Some t -> sample_is_number t.
Proof.
  induction l as [|a l IH]; intros acc H; [split; [exact H|intros j t []]|]. cbn [fold_left] in H. destruct (IH _ H) as [H1 H2]. destruct (g a) as [t|] eqn:E.
  - apply cadd_ok in H1 as [H1 H3]. split; [exact H1|]. intros j t' [<-|Hj] Et; [congruence|apply (H2 j t' Hj Et)].
  - split; [exact H1|]. intros j t' [<-|Hj] Et; [congruence|apply (H2 j t' Hj Et)].
Qed.
Lemma nth_error_map_seq {A} (f : nat -> A) n k y : nth_error (map f (seq 0 n)) k = Some y -> k < n /\ y = f k.
Proof.
  intros H. assert (Hk : k < n) by (rewrite <- (seq_length n 0), <- (map_length f); apply nth_error_Some; congruence). split; [exact Hk|].
  rewrite (map_nth_error f k (seq 0 n) (d := k)) in H; [congruence|]. rewrite (nth_error_nth' _ 0) by (rewrite seq_length; exact Hk). rewrite seq_nth by exact Hk. reflexivity.
Qed.

(** the contract is met by the transform of the books, with any table of phases *)
Theorem C121_fft_contract : forall phase, absorbing (schoolbook phase).
Proof.
  intros phase. split; [intros x; unfold schoolbook; rewrite map_length; apply seq_length|]. intros x k y Hy Oy m s Hm. apply nth_error_map_seq in Hy as [_ ->].
  destruct (fold_cadd (fun m => Some (ctimes (nth m x czero) (phase k m))) (seq 0 (length x)) czero Oy) as [_ H].
  assert (Hlt : m < length x) by (apply nth_error_Some; congruence). specialize (H m _ ltac:(apply in_seq; lia) eq_refl). apply ctimes_ok in H as [H _]. rewrite (nth_error_nth _ _ _ Hm) in H. exact H.
Qed.

(** the lag 0 of the correlation contains all the samples *)
Lemma correlate_ok x y : nth_error (correlate_same x) (length x / 2) = Some y -> sample_is_number y -> forall k s, nth_error x k = Some s -> sample_is_number s.
Proof.
  intros Hy Oy k s Hk. assert (Hlt : k < length x) by (apply nth_error_Some; congruence). unfold correlate_same in Hy. apply nth_error_map_seq in Hy as [_ ->].
  assert (E : forall l acc, fold_left (correlate_term x (length x / 2)) l acc =
     fold_left (fun acc j => match option_map (fun k => ctimes (nth k x czero) (complex_conj (nth j x czero))) (partner (length x) (length x / 2) j) with Some t => cadd acc t | None => acc end) l acc).
  { induction l as [|a l IH]; intros acc; [reflexivity|]. cbn [fold_left]. rewrite IH. unfold correlate_term. destruct (partner _ _ a); reflexivity. }
  rewrite E in Oy. destruct (fold_cadd _ _ _ Oy) as [_ H]. specialize (H k (ctimes (nth k x czero) (complex_conj (nth k x czero)))).
  assert (P : partner (length x) (length x / 2) k = Some k).
  { unfold partner. destruct (Nat.leb_spec (length x / 2) (k + length x / 2)); [|lia]. replace (k + length x / 2 - length x / 2) with k by lia. destruct (Nat.ltb_spec k (length x)); [reflexivity|lia]. }
  rewrite P in H. destruct (ctimes_ok _ _ (H ltac:(apply in_seq; lia) eq_refl)) as [H' _]. rewrite (nth_error_nth _ _ _ Hk) in H'. exact H'.
Qed.

Section Fft.
Context (transform : list complex64 -> list complex64) (modulus : complex64 -> float64) (unit_conversion : float64).
Notation piece_power := (piece_power transform modulus).
Notation fft_value := (fft_value transform modulus unit_conversion).

Lemma piece_power_length dt p : absorbing transform -> length (piece_power dt p) = length p.
Proof. intros [L _]. unfold InvalidFftModel.piece_power. rewrite map_length, L, map_length. unfold correlate_same. rewrite map_length. apply seq_length. Qed.
Lemma piece_ok dt p k v : absorbing transform -> faithful modulus -> nth_error (piece_power dt p) k = Some v -> is_number v -> forall m s, nth_error p m = Some s -> sample_is_number s.
Proof.
  intros [L A] M Hv Fv. unfold InvalidFftModel.piece_power in Hv. rewrite nth_error_map in Hv. destruct (nth_error (transform _) k) as [z|] eqn:Ez; [|discriminate]. injection Hv as <-.
  unfold is_number in Fv. cbn [mul ieee] in Fv. apply mult_fin in Fv as [Fv _]. apply M in Fv. intros m s Hm. assert (Hlt : m < length p) by (apply nth_error_Some; congruence).
  assert (H2 : length p / 2 < length p) by (apply Nat.div_lt; lia).
  destruct (nth_error (correlate_same p) (length p / 2)) as [c|] eqn:Ec.
  - apply (correlate_ok p c Ec) with (k := m); [|exact Hm]. apply (cdivide_ok c (length p)). apply (A _ _ _ Ez Fv (length p / 2)). rewrite nth_error_map, Ec. reflexivity.
  - apply nth_error_None in Ec. unfold correlate_same in Ec. rewrite map_length, seq_length in Ec. lia.
Qed.
Lemma average_ok ps a : average ps = Some a -> (forall q, In q ps -> length q = length a) /\
  forall k v, nth_error a k = Some v -> is_number v -> forall q, In q ps -> exists w, nth_error q k = Some w /\ is_number w.
Proof.
  unfold average. destruct ps as [|p ps']; [discriminate|]. set (ps := p :: ps'). clearbody ps. destruct (forallb _ _) eqn:Ef; [|discriminate]. intros H. injection H as <-. rewrite forallb_forall in Ef.
  assert (L : forall q, In q ps -> length q = length p) by (intros q Hq; apply Nat.eqb_eq, Ef, Hq).
  split; [intros q Hq; rewrite map_length, seq_length; apply L, Hq|]. intros k v Hv Fv q Hq. apply nth_error_map_seq in Hv as [Hk ->].
  unfold is_number in Fv. cbn [div ieee] in Fv. apply div_fin in Fv as [Fv _].
  assert (G : forall l acc, is_finite (fold_left (fun acc q => add ieee acc (nth k q fzero)) l acc) = true -> is_finite acc = true /\ forall q, In q l -> is_finite (nth k q fzero) = true).
  { induction l as [|b l IH]; intros acc H; [split; [exact H|intros q' []]|]. cbn [fold_left] in H. destruct (IH _ H) as [H1 H2]. cbn [add ieee] in H1. apply plus_fin in H1 as [H1 [H3 _]].
    split; [exact H1|]. intros q' [<-|Hq']; [exact H3|apply H2, Hq']. }
  destruct (G _ _ Fv) as [_ H]. specialize (H q Hq). exists (nth k q fzero). split; [|exact H]. apply nth_error_nth'. rewrite (L q Hq). exact Hk.
Qed.
(** np.interp gives a number only from numbers *)
Lemma interp_ok x xp fp position v : np_interp x xp fp position = Some v -> is_number v -> exists k w, nth_error fp k = Some w /\ is_number w.
Proof.
  unfold np_interp. destruct position as [| |j|j]; intros H Fv; [exists 0, v; auto|exists (length fp - 1), v; auto|exists j, v; auto|].
  destruct (nth_error xp j) as [x0|]; [|discriminate]. destruct (nth_error xp (S j)) as [x1|]; [|discriminate]. destruct (nth_error fp j) as [y0|] eqn:E0; [|discriminate]. destruct (nth_error fp (S j)) as [y1|] eqn:E1; [|discriminate].
  injection H as <-. unfold is_number in Fv.
  destruct (is_nan64 _); [destruct (is_nan64 _); [destruct (equal y0 y1)|]|].
  - exists j, y0. auto.
  - exists (S j), y1. split; [exact E1|]. cbn [add ieee] in Fv. apply plus_fin in Fv as [_ [Fv _]]. exact Fv.
  - exists (S j), y1. split; [exact E1|]. cbn [add ieee] in Fv. apply plus_fin in Fv as [_ [Fv _]]. exact Fv.
  - exists j, y0. split; [exact E0|]. cbn [add ieee] in Fv. apply plus_fin in Fv as [_ [Fv _]]. exact Fv.
Qed.

(** a number at any one frequency certifies every sample of every piece *)
Theorem C121_fft_partial : forall pieces data time_step freqs order x position power, absorbing transform -> faithful modulus ->
  (forall p k, In p pieces -> In k order -> k < length (piece_of data p)) ->
  fft_value pieces data time_step freqs order x position = Some power -> is_number power ->
  forall ini fin k sample, In (ini, fin) pieces -> ini <= k < fin -> nth_error data k = Some sample -> sample_is_number sample.
Proof.
  intros pieces data dt freqs order x position power A M Ho H F ini fin k s Hp Hk Hs. unfold InvalidFftModel.fft_value in H. destruct (average _) as [a|] eqn:Ea; [|discriminate].
  destruct (np_interp _ _ _ _) as [v|] eqn:Ev; [|discriminate]. injection H as <-. unfold is_number in F. cbn [mul ieee] in F. apply mult_fin in F as [F _].
  destruct (interp_ok _ _ _ _ _ Ev F) as (i & w & Hi & Fw). rewrite nth_error_map in Hi. destruct (nth_error order i) as [o|] eqn:Eo; [|discriminate]. injection Hi as <-.
  destruct (average_ok _ _ Ea) as [La Va]. assert (Hin : In (piece_power dt (piece_of data (ini, fin))) (map (fun p => piece_power dt (piece_of data p)) pieces)) by (apply in_map_iff; eauto).
  assert (Hlen := La _ Hin). rewrite piece_power_length in Hlen by exact A. assert (Hol : o < length a) by (rewrite <- Hlen; apply Ho; [exact Hp|apply nth_error_In in Eo; exact Eo]).
  destruct (Va o (nth o a fzero)) with (q := piece_power dt (piece_of data (ini, fin))) as (u & Hu & Fu); [apply nth_error_nth'; exact Hol|exact Fw|exact Hin|].
  apply (piece_ok _ _ _ _ A M Hu Fu (k - ini)). unfold piece_of. cbn [fst snd].
  assert (G : forall (l : list complex64) n m, m < n -> nth_error (firstn n l) m = nth_error l m) by (induction l as [|b l IH]; intros [|n] [|m] Hm; cbn; try reflexivity; try lia; apply IH; lia).
  rewrite G by lia. assert (G2 : forall (l : list complex64) n m, nth_error (skipn n l) m = nth_error l (n + m)) by (induction l as [|b l IH]; intros [|n] m; cbn; try reflexivity; [destruct m; reflexivity|apply IH]).
  rewrite G2. replace (ini + (k - ini)) with k by lia. exact Hs.
Qed.
(** the samples outside all the pieces (with several pieces the last one of the trajectory is such, C21) have no influence: they may be NaN *)
Theorem C121_fft_outside_refuted : forall pieces data data' time_step freqs order x position, length data = length data' ->
  (forall k, (exists p, In p pieces /\ fst p <= k < snd p) -> nth_error data k = nth_error data' k) ->
  fft_value pieces data time_step freqs order x position = fft_value pieces data' time_step freqs order x position.
Proof.
  intros pieces data data' dt freqs order x position L H. unfold InvalidFftModel.fft_value.
  assert (E : map (fun p => piece_power dt (piece_of data p)) pieces = map (fun p => piece_power dt (piece_of data' p)) pieces).
  { apply map_ext_in. intros (ini, fin) Hp. f_equal. unfold piece_of. cbn [fst snd].
    assert (K : forall k, ini <= k < fin -> nth_error data k = nth_error data' k) by (intros k Hk; apply H; exists (ini, fin); auto). clear H Hp.
    assert (G : forall n (a b : list complex64), length a = length b -> (forall m, m < n -> nth_error a m = nth_error b m) -> firstn n a = firstn n b).
    { induction n as [|n IH]; intros [|u a] [|w b] Lab Hab; cbn in Lab |- *; try reflexivity; try discriminate. f_equal; [specialize (Hab 0 ltac:(lia)); cbn in Hab; congruence|]. apply IH; [lia|]. intros m Hm. apply (Hab (S m)). lia. }
    assert (G2 : forall (l : list complex64) n m, nth_error (skipn n l) m = nth_error l (n + m)) by (induction l as [|b l IH]; intros [|n] m; cbn; try reflexivity; [destruct m; reflexivity|apply IH]).
    apply G; [rewrite !skipn_length; lia|]. intros m Hm. rewrite !G2. apply K. lia. }
  rewrite E. reflexivity.
Qed.
End Fft.

(** with the schoolbook transform and a modulus that adds the squares of the parts: two samples give a number, a NaN in them none *)
Definition sum_of_parts (z : complex64) : float64 := add ieee (mul ieee (fst z) (fst z)) (mul ieee (snd z) (snd z)).
Example C121_nonvacuous_fft : faithful sum_of_parts /\
  let value data := fft_value (schoolbook (fun _ _ => (d 1 0, d 0 0))) sum_of_parts (d 1 0) [(0, 2); (1, 3)] data (d 1 0) [d 0 0; d 1 0] [0; 1] (d 1 (-1)) (Between 0) in
  option_map (@is_finite 53 1024) (value [(d 1 0, d 0 0); (d 3 0, d 0 0); (d 1 0, d 1 0); not_a_number]) = Some true /\
  option_map (@is_finite 53 1024) (value [(d 1 0, d 0 0); not_a_number; (d 1 0, d 1 0); (d 1 0, d 0 0)]) = Some false.
Proof.
  split; [|vm_compute; split; reflexivity]. intros z F. unfold is_number, sum_of_parts in F. cbn [add mul ieee] in F. apply plus_fin in F as [F1 [F2 _]]. apply mult_fin in F1 as [F1 _]. apply mult_fin in F2 as [F2 _]. split; assumption.
Qed.
Print Assumptions C121_fft_contract. Print Assumptions C121_fft_partial. Print Assumptions C121_fft_outside_refuted. Print Assumptions C121_nonvacuous_fft.
