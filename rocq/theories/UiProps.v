(** C83: what the interactive menu shows belongs to the settings it displays.  C84: listing of numbers on the screen. *)
From Verif Require Import QuasiModel QuasiSpec QuasiProofs QuasiMore UiModel.
From Coq Require Import Lia Lra.
Open Scope Z_scope.

(** * specification *)
(** sessions in which the number of MEM coefficients is not changed; wave vectors have three components *)
Definition usual (a : action) : Prop := match a with Mem _ => False | WaveVector q => length q = 3%nat | _ => True end.
(** keys that name one of the entries 0 .. n-1 *)
Definition names (n : Z) (k : ascii) (i : Z) : Prop := 0 <= i < n /\ nat_of_ascii k = Z.to_nat (48 + i).

Section Session.
Context (K : kernels).
Hypothesis H3 : three_d K.
Local Notation Inv := (Inv K (-1)).
Lemma clear_full_Inv p o : Inv p o -> Inv p (full_clear K o).
Proof. intros []. constructor; cbn; try assumption; discriminate. Qed.
Definition fine (x : ui_step K) : Prop := match x with UCall _ c => ordinary K (-1) c | UClear _ | URaise _ => True | UNcoef _ _ => False end.
Lemma step_Inv x p o : fine x -> Inv p o -> exists r p' o', do_step K x (MkS K p o) = (r, MkS K p' o') /\ Inv p' o' /\ o_dyn K o' = o_dyn K o.
Proof.
  intros Hx I. destruct x as [c| |n|]; cbn in Hx; try contradiction.
  - destruct (call_Inv K (-1) H3 c p o Hx I) as (r & p' & o' & E & I' & D' & _). exists r, p', o'. auto.
  - exists (Some (VUnit K)), p, (full_clear K o). split; [reflexivity|]. split; [apply clear_full_Inv, I|reflexivity].
  - exists None, p, o. auto.
Qed.
Lemma perform_Inv l : forall p o s', Forall fine l -> Inv p o -> perform K l (MkS K p o) = Some s' -> exists p' o', s' = MkS K p' o' /\ Inv p' o' /\ o_dyn K o' = o_dyn K o.
Proof.
  induction l as [|x l IH]; intros p o s' Hl I E; cbn [perform] in E.
  - injection E as <-. exists p, o. auto.
  - inversion Hl as [|? ? Hx Ht]; subst. destruct (step_Inv x p o Hx I) as (r & p1 & o1 & E1 & I1 & D1). rewrite E1 in E. destruct r; [|discriminate].
    destruct (IH _ _ _ Ht I1 E) as (p2 & o2 & -> & I2 & D2). exists p2, o2. split; [reflexivity|]. split; [exact I2|congruence].
Qed.
Lemma usual_fine a : usual a -> Forall fine (steps K a).
Proof.
  destruct a; cbn; intros H; try contradiction; repeat constructor; try exact H.
  - destruct (typed 6 keys); repeat constructor.
  - induction keys as [|k keys IH]; cbn; [constructor|]. destruct (negb (is_digit k)); [repeat constructor|]. destruct (2 <? digit k); [exact IH|]. destruct born_file; repeat constructor.
  - destruct (typed 3 keys); repeat constructor.
Qed.
Lemma session_Inv acts : forall p o s', Forall usual acts -> Inv p o -> session K acts (MkS K p o) = Some s' -> exists p' o', s' = MkS K p' o' /\ Inv p' o' /\ o_dyn K o' = o_dyn K o.
Proof.
  induction acts as [|a acts IH]; intros p o s' Ha I E; cbn [session] in E.
  - injection E as <-. exists p, o. auto.
  - inversion Ha as [|? ? Hx Ht]; subst. destruct (perform K (steps K a) (MkS K p o)) as [s1|] eqn:E1; [|discriminate].
    destruct (perform_Inv _ _ _ _ (usual_fine _ Hx) I E1) as (p1 & o1 & -> & I1 & D1).
    destruct (IH _ _ _ Ht I1 E) as (p2 & o2 & -> & I2 & D2). exists p2, o2. split; [reflexivity|]. split; [exact I2|congruence].
Qed.
End Session.

(** C83.  After any session that never touches the number of MEM coefficients, each entry shows the values computed from scratch from the
    settings then in force (those displayed on the right of the screen) and the trajectory: an entry that completes shows exactly these. *)
Theorem C83_session_partial :
  forall (K : kernels), three_d K -> forall (p : params K) (d : D K) (acts : list action) (s : state K),
  length (p_q K p) = 3%nat -> Forall usual acts -> session K acts (MkS K p (new_obj K d None)) = Some s ->
  let now := par K s in
  shows K Frequencies s = [VF K (snd (fresh_eig K d now))] /\
  shows K Eigenvectors s = [VE K (fst (fresh_eig K d now))] /\
  shows K PlotFull s = match fresh_full K d now (-1) with Some x => [VPS K x; VPS K x] | None => [] end /\
  shows K PlotWave s = match fresh_wave K d now with Some x => [VPS K x; VPS K x] | None => [] end /\
  shows K PlotPhonon s = match fresh_phonon K d now with Some x => [VPS K x] | None => [] end /\
  shows K Peaks s = match fresh_phonon K d now with Some x => [VPS K x; VF K (snd (fresh_eig K d now))] | None => [] end.
Proof.
  intros K H3 p d acts s Hq Ha E. destruct (session_Inv K H3 acts p _ s Ha (new_Inv K (-1) p d Hq) E) as (p' & o' & -> & I & D). cbn [o_dyn new_obj] in D. cbn [par ob]. subst d.
  unfold shows. cbn [steps shown do_step do_call]. unfold fm, bnd.
  split; [|split; [|split; [|split; [|split]]]].
  - destruct (get_freq_ok K (-1) p' o' I) as [o1 [E1 _]]. rewrite E1. reflexivity.
  - destruct (get_eig_ok K (-1) p' o' I) as [o1 [E1 _]]. rewrite E1. reflexivity.
  - destruct (get_full_ok K (-1) p' o' I) as [q1 [o1 [E1 [I1 [F1 S1]]]]]. rewrite E1. destruct (fresh_full K (o_dyn K o') p' (-1)) as [x|] eqn:Ef; [|reflexivity].
    specialize (S1 ltac:(discriminate)). subst q1. rewrite with_q_same in *. cbn [ret]. destruct (get_full_ok K (-1) p' o1 I1) as [q2 [o2 [E2 _]]]. rewrite E2, (f_dyn _ _ _ F1), Ef. reflexivity.
  - destruct (get_wave_ok K (-1) H3 p' o' I) as [q1 [o1 [E1 [I1 [F1 S1]]]]]. rewrite E1. destruct (fresh_wave K (o_dyn K o') p') as [x|] eqn:Ef; [|reflexivity].
    specialize (S1 ltac:(discriminate)). subst q1. rewrite with_q_same in *. cbn [ret]. destruct (get_wave_ok K (-1) H3 p' o1 I1) as [q2 [o2 [E2 _]]]. rewrite E2, (f_dyn _ _ _ F1), Ef. reflexivity.
  - destruct (get_phonon_ok K (-1) H3 p' o' I) as [q1 [o1 [E1 _]]]. rewrite E1. destruct (fresh_phonon K (o_dyn K o') p') as [x|]; reflexivity.
  - destruct (get_phonon_ok K (-1) H3 p' o' I) as [q1 [o1 [E1 [I1 [F1 S1]]]]]. rewrite E1. destruct (fresh_phonon K (o_dyn K o') p') as [x|] eqn:Ef; [|reflexivity].
    specialize (S1 ltac:(discriminate)). subst q1. rewrite with_q_same in *. cbn [ret]. destruct (get_freq_ok K (-1) p' o1 I1) as [o2 [E2 _]]. rewrite E2, (f_dyn _ _ _ F1). reflexivity.
Qed.
Print Assumptions C83_session_partial.
(** The same for the entries that need the renormalized force constants: what they show is computed with the settings in force when they
    return (the frequency range may have been replaced). *)
Theorem C83_renormalized_partial :
  forall (K : kernels), three_d K -> forall (p : params K) (d : D K) (acts : list action) (s : state K),
  length (p_q K p) = 3%nat -> Forall usual acts -> session K acts (MkS K p (new_obj K d None)) = Some s ->
  (forall c s', do_call K (GetCom K true) s = (Some (VCom K c), s') -> fresh_com K d (o_qha K (ob K s')) (par K s') = Some c) /\
  (forall f s', do_call K (GetRFC K) s = (Some (VFC K f), s') -> fresh_rfc K d (o_qha K (ob K s')) (par K s') = Some f).
Proof.
  intros K H3 p d acts s Hq Ha E. destruct (session_Inv K H3 acts p _ s Ha (new_Inv K (-1) p d Hq) E) as (p' & o' & -> & I & D). cbn [o_dyn new_obj] in D. subst d. cbn [do_call].
  split; intros c s' H; apply fm_Some in H as [a [H Ea]]; injection Ea as ->.
  - destruct (get_com_ok K (-1) H3 true p' o' I) as [q1 [p1 [o1 [E1 [I1 [F1 _]]]]]]. rewrite E1 in H. injection H as Hc <-. cbn [ob par].
    rewrite (g_qha _ _ _ F1), fresh_com_q. exact Hc.
  - destruct (get_rfc_ok K (-1) H3 p' o' I) as [q1 [p1 [o1 [E1 [I1 [F1 _]]]]]]. rewrite E1 in H. injection H as Hc <-. cbn [ob par].
    rewrite (g_qha _ _ _ F1), fresh_rfc_q. exact Hc.
Qed.
Print Assumptions C83_renormalized_partial.
(** The full statement is false: after the entry "Number of MEM coefficients" everything shown before is shown again unchanged, whatever
    the new number, in every state. *)
Theorem C83_coefficients_ignored_refuted :
  forall (K : kernels) (n : Z) (s s1 s2 : state K) (a : action), In a [PlotFull; PlotWave; PlotPhonon; Dispersion; Mesh] ->
  perform K (steps K a) s = Some s1 -> session K [Mem n] s1 = Some s2 ->
  shows K a s2 = shows K a s1 /\ p_ncoef K (par K s2) = n.
Proof.
  intros K n s s1 s2 a Ha E1 E2. cbn in E2. injection E2 as <-. split; [|reflexivity]. unfold shows.
  assert (Y : forall (g : call K) s0 x s3, match g with GetPhonon _ | GetWave _ | GetFull _ _ | GetCom _ _ => True | _ => False end ->
    do_call K g s0 = (Some x, s3) -> cache K g (ob K s3) = Some x).
  { intros g s0 x s3 Hg E. apply (cache_fill K g s0 x s3 eq_refl); [|exact E]. destruct g; try contradiction; exact I. }
  assert (Z0 : forall (g : call K) s0 x, cache K g (ob K s0) = Some x -> do_call K g s0 = (Some x, s0)) by (intros g s0 x; apply cache_hit).
  destruct Ha as [<-|[<-|[<-|[<-|[<-|[]]]]]]; cbn [steps perform do_step] in E1.
  - destruct (do_call K (GetFull K (-1)) s) as [[x|] s3] eqn:F; [|discriminate]. assert (C := Y (GetFull K (-1)) _ _ _ I F). rewrite (Z0 _ _ _ C) in E1. injection E1 as <-.
    cbn [steps shown do_step]. rewrite !(Z0 _ _ _ C). rewrite !(Z0 (GetFull K (-1)) (MkS K (with_ncoef K n (par K s3)) (ob K s3)) x C). reflexivity.
  - destruct (do_call K (GetWave K) s) as [[x|] s3] eqn:F; [|discriminate]. assert (C := Y (GetWave K) _ _ _ I F). rewrite (Z0 _ _ _ C) in E1. injection E1 as <-.
    cbn [steps shown do_step]. rewrite !(Z0 _ _ _ C). rewrite !(Z0 (GetWave K) (MkS K (with_ncoef K n (par K s3)) (ob K s3)) x C). reflexivity.
  - destruct (do_call K (GetPhonon K) s) as [[x|] s3] eqn:F; [|discriminate]. assert (C := Y (GetPhonon K) _ _ _ I F). injection E1 as <-.
    cbn [steps shown do_step]. rewrite !(Z0 _ _ _ C). rewrite !(Z0 (GetPhonon K) (MkS K (with_ncoef K n (par K s3)) (ob K s3)) x C). reflexivity.
  - (* force constants and data *)
    destruct (do_call K (GetRFC K) s) as [[x|] s3] eqn:F; [|discriminate]. destruct (do_call K (GetCom K true) s3) as [[y|] s4] eqn:G; [|discriminate]. injection E1 as <-.
    assert (C4 := Y (GetCom K true) _ _ _ I G).
    assert (R4 : exists f, o_rfc K (ob K s4) = Some f).
    { assert (R3 : exists c f, o_com K (ob K s3) = Some c /\ o_rfc K (ob K s3) = Some f).
      { clear G. cbn [do_call] in F. apply fm_Some in F as (f & F & ->). unfold get_renormalized_force_constants in F. apply bnd_Some in F as (c & s5 & F1 & F2).
        assert (C5 : cache K (GetCom K true) (ob K s5) = Some (VCom K c)) by (apply (cache_fill K (GetCom K true) s (VCom K c) s5 eq_refl I); cbn [do_call]; unfold fm, bnd; rewrite F1; reflexivity).
        cbn [cache] in C5. unfold bnd, gets in F2. destruct (o_com K (ob K s5)) as [c'|] eqn:Ec; [|discriminate]. destruct (o_rfc K (ob K s5)) as [f'|] eqn:Er.
        - injection F2 as <- <-. exists c', f'. split; [exact Ec|exact Er].
        - injection F2 as <- <-. exists c'. eexists. cbn. split; [exact Ec|reflexivity]. }
      destruct R3 as (c & f & Rc & Rf). exists f. assert (C3 : cache K (GetCom K true) (ob K s3) = Some (VCom K c)) by (cbn [cache]; rewrite Rc; reflexivity). rewrite (Z0 _ _ _ C3) in G. injection G as <- <-. exact Rf. }
    destruct R4 as [f Rf].
    assert (H : forall s0, ob K s0 = ob K s4 -> shown K (steps K Dispersion) s0 = [VFC K f; y]).
    { intros s0 E0. cbn [steps shown do_step]. cbn [cache] in C4. destruct (o_com K (ob K s4)) as [c|] eqn:Ec; [|discriminate]. cbn in C4. injection C4 as <-.
      assert (R : do_call K (GetRFC K) s0 = (Some (VFC K f), s0)).
      { cbn [do_call]. unfold fm, get_renormalized_force_constants, get_commensurate_points_data, bnd, gets. rewrite E0, Ec. unfold ret at 1. cbn iota. rewrite E0, Rf. reflexivity. }
      rewrite R. rewrite (Z0 (GetCom K true) s0 (VCom K c)); [reflexivity|]. cbn [cache]. rewrite E0, Ec. reflexivity. }
    rewrite !H; reflexivity.
  - destruct (do_call K (GetCom K true) s) as [[x|] s3] eqn:F; [|discriminate]. assert (C := Y (GetCom K true) _ _ _ I F). injection E1 as <-.
    cbn [steps shown do_step]. rewrite !(Z0 _ _ _ C). rewrite !(Z0 (GetCom K true) (MkS K (with_ncoef K n (par K s3)) (ob K s3)) x C). reflexivity.
Qed.
Print Assumptions C83_coefficients_ignored_refuted.
(** Typed selections: the first key that names an entry is taken, other keys are skipped; so a selection made in the menu is never refused. *)
Theorem C83_selection_partial :
  forall n keys i, 0 < n <= 9 ->
  (typed n keys = Some i <-> exists before k after, keys = before ++ k :: after /\ names n k i /\ forall b j, In b before -> ~ names n b j).
Proof.
  intros n keys i Hn.
  assert (D : forall k, (exists j, names n k j) <-> n <=? digit k = false).
  { intros k. unfold names, digit. rewrite Z.leb_gt. split.
    - intros (j & Hj & E). rewrite E, Z2Nat.id by lia. replace ((48 <=? 48 + j) && (48 + j <=? 57)) with true by (symmetry; apply andb_true_iff; split; apply Z.leb_le; lia). lia.
    - destruct ((48 <=? Z.of_nat (nat_of_ascii k)) && (Z.of_nat (nat_of_ascii k) <=? 57)) eqn:E; [|lia]. apply andb_true_iff in E as [A B]. apply Z.leb_le in A, B. intros H.
      exists (Z.of_nat (nat_of_ascii k) - 48). split; [lia|]. rewrite <- (Nat2Z.id (nat_of_ascii k)) at 1. f_equal. lia. }
  assert (V : forall k j, names n k j -> digit k = j).
  { intros k j (Hj & E). unfold digit. rewrite E, Z2Nat.id by lia. replace ((48 <=? 48 + j) && (48 + j <=? 57)) with true by (symmetry; apply andb_true_iff; split; apply Z.leb_le; lia). lia. }
  induction keys as [|k keys IH]; cbn [typed].
  - split; [discriminate|]. intros (b & k & l & E & _). destruct b; discriminate.
  - destruct (n <=? digit k) eqn:E.
    + rewrite IH. split.
      * intros (b & k' & l & -> & N & Nb). exists (k :: b), k', l. split; [reflexivity|]. split; [exact N|]. intros c j [<-|Hc]; [|apply Nb, Hc]. intros Nc. assert (X := proj1 (D k) (ex_intro _ j Nc)). congruence.
      * intros (b & k' & l & Eq & N & Nb). destruct b as [|b0 b]; cbn in Eq.
        -- injection Eq as -> ->. assert (X := proj1 (D k') (ex_intro _ i N)). congruence.
        -- injection Eq as -> ->. exists b, k', l. split; [reflexivity|]. split; [exact N|]. intros c j Hc. apply Nb. right. exact Hc.
    + split.
      * intros [= <-]. destruct (proj2 (D k) E) as [j Nj]. rewrite (V _ _ Nj). exists [], k, keys. split; [reflexivity|]. split; [exact Nj|]. intros b j' [].
      * intros (b & k' & l & Eq & N & Nb). destruct b as [|b0 b]; cbn in Eq.
        -- injection Eq as -> ->. rewrite (V _ _ N). reflexivity.
        -- injection Eq as -> ->. exfalso. destruct (proj2 (D b0) E) as [j Nj]. exact (Nb b0 j (or_introl eq_refl) Nj).
Qed.
Print Assumptions C83_selection_partial.
Theorem C83_selection_accepted_partial :
  forall (K : kernels) (keys : list ascii) (s : state K),
  perform K (steps K (Algorithm keys)) s <> None /\ perform K (steps K (Fitting keys)) s <> None.
Proof.
  intros K keys s. assert (N : forall n i l, 0 < n <= 9 -> typed n l = Some i -> 0 <= i < n).
  { intros n i l Hn E. apply C83_selection_partial in E; [|exact Hn]. destruct E as (_ & _ & _ & _ & [H _] & _). exact H. }
  split; cbn [steps].
  - destruct (typed 6 keys) as [a|] eqn:E; cbn [perform do_step]; [|discriminate]. apply N in E; [|lia].
    destruct (do_call K (SelAlg K a) s) as [[v|] s'] eqn:F; [discriminate|]. exfalso. assert (X := proj1 (proj2 (proj2 (proj2 (selections K a s))))). destruct X as [X _]; [lia|]. rewrite F in X. discriminate.
  - destruct (typed 3 keys) as [a|] eqn:E; cbn [perform do_step]; [|discriminate]. apply N in E; [|lia].
    destruct (do_call K (SelFit K a) s) as [[v|] s'] eqn:F; [discriminate|]. exfalso. assert (X := proj1 (proj2 (proj2 (proj2 (proj2 (selections K a s)))))). destruct X as [X _]; [lia|]. rewrite F in X. discriminate.
Qed.
Print Assumptions C83_selection_accepted_partial.
(** Non analytical corrections: with a BORN file, "1" selects On and "2" Off, and the keys 3 .. 9 are skipped, whatever the rest; but "0",
    which names no entry of this menu, turns the corrections on, and any other key ends the session with an exception. *)
Theorem C83_corrections_partial :
  forall (K : kernels) (skipped rest : list ascii) (on : bool) (s : state K),
  (forall k, In k skipped -> In k ["3"; "4"; "5"; "6"; "7"; "8"; "9"]%char) ->
  perform K (steps K (Nac true (skipped ++ (if on then "1"%char else "2"%char) :: rest))) s = Some (snd (do_call K (SetNAC K on) s)) /\
  p_nac K (par K (snd (do_call K (SetNAC K on) s))) = on.
Proof.
  intros K sk rest on s H. split; [|cbn; destruct s; reflexivity]. cbn [steps]. induction sk as [|k sk IH]; cbn [app nac_steps].
  - destruct on; reflexivity.
  - assert (Hk := H k (or_introl eq_refl)). assert (E : is_digit k = true /\ 2 <? digit k = true) by (cbn in Hk; intuition (subst; reflexivity)).
    destruct E as [-> ->]. cbn [negb]. apply IH. intros j Hj. apply H. right. exact Hj.
Qed.
Print Assumptions C83_corrections_partial.
Theorem C83_zero_key_refuted :
  forall (K : kernels) (rest : list ascii) (s : state K),
  perform K (steps K (Nac true ("0"%char :: rest))) s = Some (snd (do_call K (SetNAC K true) s)) /\
  p_nac K (par K (snd (do_call K (SetNAC K true) s))) = true.
Proof. intros K rest s. split; [reflexivity|]. cbn. destruct s; reflexivity. Qed.
Print Assumptions C83_zero_key_refuted.
Theorem C83_other_key_refuted :
  forall (K : kernels) (k : ascii) (born : bool) (rest : list ascii) (s : state K),
  ~ In k ["0"; "1"; "2"; "3"; "4"; "5"; "6"; "7"; "8"; "9"]%char -> perform K (steps K (Nac born (k :: rest))) s = None.
Proof.
  intros K k born rest s H. cbn [steps nac_steps]. replace (is_digit k) with false; [reflexivity|]. symmetry. unfold is_digit.
  destruct (_ && _) eqn:E; [exfalso|reflexivity]. apply andb_true_iff in E as [A B]. apply Z.leb_le in A, B. apply H.
  destruct k as [[] [] [] [] [] [] [] []]; cbn in A, B |- *; try lia; auto 12.
Qed.
Print Assumptions C83_other_key_refuted.
Example C83_nonvacuous :
  Forall usual [PlotPhonon; WaveVector [0; 1; 0]%R; Algorithm ["x"%char; "7"%char; "2"%char]; Resolution 2%R; PlotFull] /\
  exists s, session Kfree [PlotFull; Mem 7] s0 = Some s /\ p_ncoef Kfree (par Kfree s) <> p_ncoef Kfree (par Kfree s0).
Proof. split; [repeat constructor|]. eexists. split; [reflexivity|]. cbn. lia. Qed.
(** with the free kernels the value shown after [Mem] is not the one for the new number *)
Example C83_stale : forall s, session Kfree [PlotFull; Mem 7] s0 = Some s ->
  shows Kfree PlotFull s <> match fresh_full Kfree 100 (par Kfree s) (-1) with Some x => [VPS Kfree x; VPS Kfree x] | None => [] end.
Proof. intros s E. injection E as <-. cbn. intros E. injection E. intros. discriminate. Qed.

(** C84: the numbers 1, 2, ... are listed three per row, each with its value; exactly when their number is a multiple of three. *)
Lemma rows3_spec {A} (l : list A) : forall n, (length l <= n)%nat ->
  ((exists r, rows3 l = Some r) <-> exists k, length l = (3 * k)%nat) /\
  (forall r, rows3 l = Some r -> concat r = l /\ Forall (fun x => length x = 3%nat) r).
Proof.
  intros n. revert l. induction n as [n IH] using lt_wf_ind. intros l Hl. destruct l as [|x [|y [|z l]]].
  - cbn. split; [split; [exists 0%nat; reflexivity|exists []; reflexivity]|]. intros r [= <-]. split; constructor.
  - cbn. split; [split; [intros [r E]; discriminate|intros [k E]; lia]|]. intros r E. discriminate.
  - cbn. split; [split; [intros [r E]; discriminate|intros [k E]; lia]|]. intros r E. discriminate.
  - cbn [length] in Hl. destruct (IH (length l) ltac:(lia) l (le_n _)) as [[A1 A2] B]. cbn [rows3]. split; [split|].
    + intros [r E]. destruct (rows3 l) as [r'|]; [|discriminate]. destruct A1 as [k Hk]; [exists r'; reflexivity|]. exists (S k). cbn [length]. lia.
    + intros [k Hk]. cbn [length] in Hk. destruct A2 as [r E]; [exists (k - 1)%nat; lia|]. rewrite E. eexists. reflexivity.
    + intros r E. destruct (rows3 l) as [r'|] eqn:Er; [|discriminate]. injection E as <-. destruct (B r' eq_refl) as [C F]. cbn [concat]. rewrite C. split; [reflexivity|constructor; [reflexivity|exact F]].
Qed.
Theorem C84_listing : forall (A : Type) (pile : list A) (posx posy : nat),
  ((exists l, list_on_screen pile posx posy = Some l) <-> exists k, length pile = (3 * k)%nat) /\
  forall l, list_on_screen pile posx posy = Some l ->
  length l = length pile /\
  forall k v, nth_error pile k = Some v -> nth_error l k = Some ((posx + k / 3)%nat, (posy + 20 * (k mod 3))%nat, (k + 1)%nat, v).
Proof.
  intros A pile posx posy. destruct (rows3_spec pile _ (le_n _)) as [E R]. unfold list_on_screen. split.
  - rewrite <- E. split; [intros [l H]; destruct (rows3 pile) as [r|]; [exists r; reflexivity|discriminate]|intros [r ->]; eexists; reflexivity].
  - intros l Hl. destruct (rows3 pile) as [rows|] eqn:Er; [|discriminate]. destruct (R rows eq_refl) as [C F]. clear E R Er. cbn [option_map] in Hl. injection Hl as <-. subst pile.
    assert (W : rows = [] \/ length (hd [] rows) = 3%nat) by (destruct F; [left; reflexivity|right; assumption]).
    destruct W as [->|W]; [cbn; split; [reflexivity|intros [|k] v Hk; discriminate]|]. rewrite W. clear W.
    assert (G : forall (rs : list (list A)) i0, Forall (fun x => length x = 3%nat) rs ->
      let l := concat (map (fun ir : nat * list A => map (fun je : nat * A => ((posx + fst ir)%nat, (posy + fst je * 20)%nat, (fst ir * 3 + fst je + 1)%nat, snd je)) (combine (seq 0 (length (snd ir))) (snd ir))) (combine (seq i0 (length rs)) rs)) in
      length l = length (concat rs) /\ forall k v, nth_error (concat rs) k = Some v -> nth_error l k = Some ((posx + (i0 + k / 3))%nat, (posy + 20 * (k mod 3))%nat, (3 * i0 + k + 1)%nat, v)).
    { induction rs as [|r rs IH]; intros i0 HF; [cbn; split; [reflexivity|intros [|k] v Hk; discriminate]|]. inversion HF as [|? ? Hr Ht]; subst.
      destruct r as [|x [|y [|z [|w r]]]]; cbn in Hr; try discriminate. specialize (IH (S i0) Ht). destruct IH as [IHl IHn]. cbn [concat length seq combine map fst snd app] in *.
      cbv zeta in *. split; [rewrite IHl; reflexivity|]. intros [|[|[|k]]] v Hk; cbn [nth_error] in Hk |- *.
      - injection Hk as <-. apply f_equal; apply f_equal2; [apply f_equal2; [apply f_equal2; [|]|]|reflexivity]; cbn; lia.
      - injection Hk as <-. apply f_equal; apply f_equal2; [apply f_equal2; [apply f_equal2; [|]|]|reflexivity]; cbn; lia.
      - injection Hk as <-. apply f_equal; apply f_equal2; [apply f_equal2; [apply f_equal2; [|]|]|reflexivity]; cbn; lia.
      - rewrite (IHn k v Hk). assert (Q : ((S (S (S k))) / 3 = S (k / 3))%nat) by (change (S (S (S k))) with (3 + k)%nat; replace (3 + k)%nat with (k + 1 * 3)%nat by lia; rewrite Nat.div_add by lia; lia).
        assert (M : ((S (S (S k))) mod 3 = k mod 3)%nat) by (replace (S (S (S k))) with (k + 1 * 3)%nat by lia; apply Nat.mod_add; lia). rewrite Q, M. apply f_equal; apply f_equal2; [apply f_equal2; [apply f_equal2; [|]|]|reflexivity]; lia. }
    destruct (G rows 0%nat F) as [G1 G2]. split; [exact G1|]. intros k v Hk. exact (G2 k v Hk).
Qed.
Print Assumptions C84_listing.
Example C84_nonvacuous : list_on_screen [7; 8; 9; 10; 11; 12]%Z 5 4 =
  Some [(5, 4, 1, 7%Z); (5, 24, 2, 8%Z); (5, 44, 3, 9%Z); (6, 4, 4, 10%Z); (6, 24, 5, 11%Z); (6, 44, 6, 12%Z)]%nat.
Proof. reflexivity. Qed.
