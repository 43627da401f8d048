(** C21, C22: data segmentation and frequency axis. *)
From Verif Require Import SpectraModel SpectraSpec SpectraProofs.
From Coq Require Import Lra Lia.
Open Scope R_scope.

(** C21 in exact arithmetic: for every accepted resolution and time step (piece size at least one)
    and every data length. *)
Theorem C21_exact_arithmetic_partial :
  forall (resolution time_step : R) (N : Z), (1 <= N)%Z -> (1 <= around (1 / (time_step * resolution)))%Z ->
  exists pieces, division_of_data exact resolution N time_step = Some pieces /\ good_pieces N pieces /\
  forall p, In p pieces -> (snd p - fst p)%Z = piece_length N (around (1 / (time_step * resolution))).
Proof. intros r dt N. apply division_exact. Qed.
Print Assumptions C21_exact_arithmetic_partial.
(** The remaining inputs: a resolution coarser than 2/time_step makes the piece size 0 and the
    function raises. *)
Theorem C21_coarse_resolution :
  forall (resolution time_step : R) (N : Z), (around (1 / (time_step * resolution)) = 0)%Z ->
  division_of_data exact resolution N time_step = None.
Proof. intros r dt N H. unfold division_of_data. cbn -[zrange trunc IZR]. rewrite H. reflexivity. Qed.
Print Assumptions C21_coarse_resolution.

(** Full statement false for the binary64 arithmetic Python uses: with N = 107 and piece size 5 the
    last sample belongs to no piece ... *)
Definition fl (z : Z) : num binary64 := of_int z.
Definition fq (a b : Z) : num binary64 := div (fl a) (fl b).
Theorem C21_last_sample_lost_refuted :
  exists pieces, division_of_data binary64 (fq 1 5) 107 (fl 1) = Some pieces /\
  (forall p, In p pieces -> (snd p <= 106)%Z) /\ ~ good_pieces 107 pieces.
Proof.
  destruct (division_of_data binary64 (fq 1 5) 107 (fl 1)) as [l|] eqn:E; vm_compute in E; [|discriminate].
  exists l. split; [reflexivity|]. injection E as <-. split.
  - intros p H. repeat (destruct H as [<-|H]; [cbn; lia|]). destruct H.
  - intros [_ [_ [_ [_ [H _]]]]]. vm_compute in H. discriminate.
Qed.
Print Assumptions C21_last_sample_lost_refuted.
(** ... and with N = 129 and piece size 6 the pieces have different lengths (averaging the spectra
    of the pieces then fails). *)
Theorem C21_unequal_pieces_refuted :
  exists pieces, division_of_data binary64 (fq 1 6) 129 (fl 1) = Some pieces /\
  nth 0 pieces (0, 0)%Z = (0, 6)%Z /\ last pieces (0, 0)%Z = (122, 129)%Z.
Proof. eexists. split; [vm_compute; reflexivity|]. split; reflexivity. Qed.
Print Assumptions C21_unequal_pieces_refuted.
Example C21_nonvacuous : around (1 / (1 * (1 / 5))) = 5%Z.
Proof. replace (1 / (1 * (1 / 5))) with 5 by lra. apply (around_IZR 5). Qed.

(** C22 in exact arithmetic. *)
Theorem C22_frequency_limits_exact_partial :
  forall (lo hi : R) (s : axis exact), 0 < (resol s : R) -> lo <= hi ->
  exists s', @set_frequency_limits exact lo hi s = Some s' /\ resol s' = resol s /\
  good_axis lo hi (resol s) (frange s') /\ @set_frequency_limits exact lo hi s' = Some s'.
Proof. exact limits_axis. Qed.
Print Assumptions C22_frequency_limits_exact_partial.
(** A new resolution keeps the lower end and covers the previous axis; repeating it changes nothing. *)
Theorem C22_resolution_exact_partial :
  forall (lo hi r r' : R) (s : axis exact), 0 < r' -> good_axis lo hi r (frange s) -> lo <= hi ->
  exists s', @set_spectra_resolution exact r' s = Some s' /\ resol s' = r' /\
  good_axis lo (last (frange s) 0) r' (frange s') /\ @set_spectra_resolution exact r' s' = Some s'.
Proof. exact resolution_axis. Qed.
Print Assumptions C22_resolution_exact_partial.
(** Full statement false in binary64: with limits 0, 16 and resolution 0.01 the axis reaches
    hi + resolution (SFcompare says last >= 16 + 0.01) ... *)
Theorem C22_overshoot_refuted :
  exists s', @set_frequency_limits binary64 (fl 0) (fl 16) (MkAxis [] (fq 1 100)) = Some s' /\
  length (frange s') = 1602%nat /\ SFleb (SFadd 53 1024 (fl 16) (fq 1 100)) (last (frange s') (fl 0)) = true.
Proof.
  assert (H : match @set_frequency_limits binary64 (fl 0) (fl 16) (MkAxis [] (fq 1 100)) with
    | Some s' => (length (frange s') =? 1602)%nat && SFleb (SFadd 53 1024 (fl 16) (fq 1 100)) (last (frange s') (fl 0))
    | None => false end = true) by (vm_compute; reflexivity).
  destruct (set_frequency_limits _ _ _) as [s'|]; [|discriminate]. exists s'. split; [reflexivity|].
  apply andb_prop in H as [H1 H2]. apply Nat.eqb_eq in H1. split; assumption.
Qed.
Print Assumptions C22_overshoot_refuted.
(** ... and repeating set_spectra_resolution with the same value is not idempotent: with limits
    0, 4.5 and resolution 0.2 every repetition adds one frequency. *)
Theorem C22_resolution_creeps_refuted :
  exists s1 s2 s3, @set_frequency_limits binary64 (fl 0) (fq 9 2) (MkAxis [] (fq 1 5)) = Some s1 /\
  @set_spectra_resolution binary64 (fq 1 5) s1 = Some s2 /\ @set_spectra_resolution binary64 (fq 1 5) s2 = Some s3 /\
  length (frange s1) = 24%nat /\ length (frange s2) = 25%nat /\ length (frange s3) = 26%nat.
Proof.
  assert (H : match @set_frequency_limits binary64 (fl 0) (fq 9 2) (MkAxis [] (fq 1 5)) with
    | Some s1 => match @set_spectra_resolution binary64 (fq 1 5) s1 with
      | Some s2 => match @set_spectra_resolution binary64 (fq 1 5) s2 with
        | Some s3 => (length (frange s1) =? 24)%nat && (length (frange s2) =? 25)%nat && (length (frange s3) =? 26)%nat
        | None => false end | None => false end | None => false end = true) by (vm_compute; reflexivity).
  destruct (set_frequency_limits _ _ _) as [s1|]; [|discriminate]. exists s1.
  destruct (set_spectra_resolution _ s1) as [s2|]; [|discriminate]. exists s2.
  destruct (set_spectra_resolution _ s2) as [s3|]; [|discriminate]. exists s3.
  apply andb_prop in H as [H H3]. apply andb_prop in H as [H1 H2]. apply Nat.eqb_eq in H1, H2, H3.
  split; [reflexivity|]. split; [reflexivity|]. split; [reflexivity|]. split; [assumption|]. split; assumption.
Qed.
Print Assumptions C22_resolution_creeps_refuted.
Example C22_nonvacuous : exists s', @set_frequency_limits exact 0 1 (@MkAxis exact [] (3/10)) = Some s' /\ length (frange s') = 5%nat.
Proof.
  destruct (limits_axis 0 1 (@MkAxis exact [] (3/10)) ltac:(cbn; lra) ltac:(lra)) as [s' [E [_ [[G1 [G2 G3]] _]]]]. exists s'. split; [exact E|].
  destruct s' as [l r']. cbn [resol frange] in *. change (num exact) with R in *. clear E. rewrite last_nth' in G3. rewrite G2 in G3 by lia.
  assert (length l - 1 < 5)%nat by (apply INR_lt; simpl; lra). assert (3 < length l - 1)%nat by (apply INR_lt; simpl; lra). lia.
Qed.
