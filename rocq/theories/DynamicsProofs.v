From Verif Require Import DynamicsModel DynamicsSpec.
Open Scope nat_scope.

(* ---------- lastn ---------- *)
Lemma lastn_length {A} n (l : list A) : length (lastn n l) = Nat.min n (length l).
Proof. unfold lastn. rewrite skipn_length. lia. Qed.
Lemma lastn_all {A} n (l : list A) : length l <= n -> lastn n l = l.
Proof. intros H. unfold lastn. replace (length l - n) with 0 by lia. reflexivity. Qed.
Lemma skipn_skipn' {A} a b (l : list A) : skipn a (skipn b l) = skipn (a + b) l.
Proof.
  revert l; induction b as [|b IH]; intros l; [rewrite Nat.add_0_r; reflexivity|].
  destruct l as [|x l]; [rewrite !skipn_nil; reflexivity|].
  rewrite Nat.add_succ_r. simpl. apply IH.
Qed.
Lemma lastn_lastn {A} m n (l : list A) : lastn m (lastn n l) = lastn (Nat.min n m) l.
Proof.
  unfold lastn. rewrite skipn_length, skipn_skipn'. f_equal. lia.
Qed.
Lemma map_lastn {A B} (f : A -> B) n l : map f (lastn n l) = lastn n (map f l).
Proof. unfold lastn. rewrite map_length. rewrite skipn_map. reflexivity. Qed.
Lemma lastn_app {A} n (l1 l2 : list A) : length l2 = n -> lastn n (l1 ++ l2) = l2.
Proof.
  intros H. unfold lastn. rewrite app_length, H. replace (length l1 + n - n) with (length l1) by lia.
  rewrite skipn_app, skipn_all, Nat.sub_diag. reflexivity.
Qed.

Section Dyn.
Context {P V E T M : Type}.
Variable unscale : P -> P.
Variable displace : P -> P.
Variable gradient : list P -> T -> list V.
Variable massweight : V -> V.
Variable average_step : list T -> T.
Variable is_zero : T -> bool.
Variable mean_matrix : bool -> list P -> M.
Local Notation dyn := (dynamics P V E T M).
Local Notation trajectory := (@trajectory P V E T M unscale).
Local Notation relative := (@relative P V E T M unscale displace).
Local Notation time_step := (@time_step P V E T M average_step is_zero).
Local Notation velocity := (@velocity P V E T M unscale displace gradient average_step is_zero).
Local Notation velocity_mass := (@velocity_mass P V E T M unscale displace gradient massweight average_step is_zero).
Local Notation mean_displacement := (@mean_displacement P V E T M unscale displace mean_matrix).
Local Notation crop := (@crop P V E T M unscale displace gradient average_step is_zero).
Local Notation dstep := (@dstep P V E T M unscale displace gradient massweight average_step is_zero mean_matrix).
Local Notation drun := (@drun P V E T M unscale displace gradient massweight average_step is_zero mean_matrix).

Record DInv (s : dyn) : Prop := {
  di_rel : forall r, d_rel s = Some r -> exists t, d_traj s = Some t /\ r = map displace t;
  di_vma : forall w, d_vma s = Some w -> exists v, d_vel s = Some v /\ w = map massweight v
}.

Lemma trajectory_facts (s : dyn) t s' : trajectory s = Some (t, s') ->
  held_trajectory unscale s = Some t /\ s' = upd_traj s (Some t).
Proof.
  unfold trajectory, held_trajectory. destruct s as [tr sc re ve en ti vm md ts mm]; simpl.
  destruct tr as [a|]; [intros [= -> <-]; split; reflexivity|].
  destruct sc as [q|]; [|discriminate]. intros [= <- <-]. split; reflexivity.
Qed.
Lemma relative_facts (s : dyn) r s' : DInv s -> relative s = Some (r, s') ->
  exists t, held_trajectory unscale s = Some t /\ r = map displace t /\ s' = upd_rel (upd_traj s (Some t)) (Some r).
Proof.
  intros I. unfold relative. destruct (d_rel s) as [r0|] eqn:E0.
  - intros [= -> <-]. destruct (di_rel s I r E0) as [t [Et Er]]. exists t.
    unfold held_trajectory. rewrite Et. split; [reflexivity|]. split; [assumption|].
    destruct s; simpl in *; subst; reflexivity.
  - destruct (trajectory s) as [[t s1]|] eqn:E1; [|discriminate]. intros [= <- <-].
    apply trajectory_facts in E1 as [H ->]. exists t. split; [assumption|]. split; reflexivity.
Qed.
Lemma time_step_facts (s : dyn) h s' : time_step s = Some (h, s') ->
  s' = upd_ts s (Some h).
Proof.
  unfold time_step. destruct s as [tr sc re ve en ti vm md ts mm]; simpl.
  destruct ts as [v|]; [destruct (is_zero v)|]; destruct ti; simpl; try discriminate; intros [= <- <-]; reflexivity.
Qed.
Lemma velocity_facts (s : dyn) v s' : DInv s -> velocity s = Some (v, s') ->
  (d_vel s = Some v /\ s' = s) \/
  (d_vel s = None /\ exists t r h, held_trajectory unscale s = Some t /\ r = map displace t /\ v = gradient r h /\
   s' = upd_vel (upd_ts (upd_rel (upd_traj s (Some t)) (Some r)) (Some h)) (Some v)).
Proof.
  intros I. unfold velocity. destruct (d_vel s) as [v0|] eqn:E0.
  - intros [= -> <-]. left; split; reflexivity.
  - destruct (relative s) as [[r s1]|] eqn:E1; [|discriminate].
    apply relative_facts in E1 as [t [Ht [Hr ->]]]; [|assumption].
    destruct (time_step _) as [[h s2]|] eqn:E2; [|discriminate]. apply time_step_facts in E2. intros [= <- <-].
    right. split; [reflexivity|]. exists t, r, h. subst s2. repeat split; assumption.
Qed.

Ltac dinv_split I := constructor; simpl; intros; try discriminate; try (eapply di_rel; eassumption); try (eapply di_vma; eassumption).

Lemma DInv_trajectory s t s' : DInv s -> trajectory s = Some (t, s') -> DInv s'.
Proof.
  intros I H. apply trajectory_facts in H as [H ->]. constructor; simpl.
  - intros r Hr. destruct (di_rel s I r Hr) as [t' [E1 E2]]. unfold held_trajectory in H. rewrite E1 in H.
    injection H as <-. exists t'; split; [reflexivity|assumption].
  - apply I.
Qed.
Lemma DInv_relative s t s' : DInv s -> relative s = Some (t, s') -> DInv s'.
Proof.
  intros I H. apply relative_facts in H as [q [Hq [Hr ->]]]; [|assumption]. constructor; simpl.
  - intros r [= <-]. exists q; split; [reflexivity|assumption].
  - apply I.
Qed.
Lemma DInv_velocity s t s' : DInv s -> velocity s = Some (t, s') -> DInv s'.
Proof.
  intros I H. apply velocity_facts in H; [|assumption].
  destruct H as [[_ ->]|[E0 [q [r [h [Hq [Hr [Hv ->]]]]]]]]; [assumption|]. constructor; simpl.
  - intros r' [= <-]. exists q; split; [reflexivity|assumption].
  - intros w Hw. destruct (di_vma s I w Hw) as [v [Ev _]]. congruence.
Qed.

(** what crop does to the state, step by step *)
Definition crop_data (n : nat) (s : dyn) : dyn :=
  MkDyn (option_map (lastn n) (d_traj s))
        (match d_traj s with Some _ => None | None => option_map (lastn n) (d_scaled s) end)
        None (d_vel s) (option_map (lastn n) (d_energy s)) (option_map (lastn n) (d_time s))
        (d_vma s) (d_mdm s) (d_ts s) (d_memmap s).
Lemma crop_unfold z s : DInv s -> (0 < z)%Z ->
  crop (Some z) s =
  match velocity (crop_data (Z.to_nat z) s) with
  | None => None
  | Some (v, s1) =>
    let s2 := upd_vma (upd_vel s1 (Some (lastn (Z.to_nat z) v))) None in
    if d_memmap s2 then match d_rel s2 with None => None | Some _ => Some (upd_rel s2 None) end
    else Some (upd_rel s2 None)
  end.
Proof.
  intros I Hz. unfold crop. replace (z <=? 0)%Z with false by (symmetry; apply Z.leb_gt; lia).
  destruct I as [Ir Iv]. destruct s as [tr sc re ve en ti vm md ts mm]; simpl in *.
  unfold crop_data; simpl.
  destruct tr as [t|]; simpl.
  - destruct en, ti; reflexivity.
  - destruct re as [r|]; [destruct (Ir r eq_refl) as [t [D _]]; discriminate|]. simpl.
    destruct sc; simpl; destruct en, ti; reflexivity.
Qed.
Lemma DInv_crop_data n s : DInv s -> DInv (crop_data n s).
Proof. intros I. constructor; simpl; [discriminate|apply I]. Qed.
Lemma held_crop_data n s : held_trajectory unscale (crop_data n s) = option_map (lastn n) (held_trajectory unscale s).
Proof.
  unfold held_trajectory, crop_data; simpl. destruct (d_traj s); simpl; [reflexivity|].
  destruct (d_scaled s); simpl; [rewrite map_lastn; reflexivity|reflexivity].
Qed.
Lemma held_velocity s v s' : DInv s -> velocity s = Some (v, s') -> held_trajectory unscale s' = held_trajectory unscale s
  /\ d_energy s' = d_energy s /\ d_time s' = d_time s /\ d_vel s' = Some v.
Proof.
  intros I H. apply velocity_facts in H; [|assumption].
  destruct H as [[? ->]|[E0 [q [r [h [Hq [Hr [Hv ->]]]]]]]]; [repeat split; assumption|].
  rewrite Hq. repeat split; reflexivity.
Qed.

Lemma crop_spec z s s' : DInv s -> (0 < z)%Z -> crop (Some z) s = Some s' ->
  let n := Z.to_nat z in
  held_trajectory unscale s' = option_map (lastn n) (held_trajectory unscale s) /\
  d_energy s' = option_map (lastn n) (d_energy s) /\
  d_time s' = option_map (lastn n) (d_time s) /\
  (forall v, d_vel s = Some v -> d_vel s' = Some (lastn n v)) /\
  d_vma s' = None /\ d_rel s' = None /\
  (exists v, d_vel s' = Some v).
Proof.
  intros I Hz. rewrite crop_unfold by assumption. cbv zeta.
  destruct (velocity (crop_data (Z.to_nat z) s)) as [[v s1]|] eqn:Ev; [|discriminate].
  assert (H := held_velocity _ _ _ (DInv_crop_data (Z.to_nat z) s I) Ev). destruct H as [H1 [H2 [H3 H4]]].
  rewrite held_crop_data in H1.
  assert (C : forall s2, (if d_memmap (upd_vma (upd_vel s1 (Some (lastn (Z.to_nat z) v))) None)
     then match d_rel (upd_vma (upd_vel s1 (Some (lastn (Z.to_nat z) v))) None) with
          | Some _ => Some (upd_rel (upd_vma (upd_vel s1 (Some (lastn (Z.to_nat z) v))) None) None) | None => None end
     else Some (upd_rel (upd_vma (upd_vel s1 (Some (lastn (Z.to_nat z) v))) None) None)) = Some s2 ->
     s2 = upd_rel (upd_vma (upd_vel s1 (Some (lastn (Z.to_nat z) v))) None) None).
  { intros s2. destruct (d_memmap _); [destruct (d_rel _); [|discriminate]|]; intros [= <-]; reflexivity. }
  intros Hs. apply C in Hs. subst s'. simpl.
  split; [exact H1|]. split; [exact H2|]. split; [exact H3|]. split.
  - intros v0 Hv0. apply velocity_facts in Ev; [|apply DInv_crop_data; assumption].
    destruct Ev as [[Ev _]|[Ev _]]; simpl in Ev; rewrite Hv0 in Ev; [injection Ev as <-; reflexivity|discriminate].
  - split; [reflexivity|]. split; [reflexivity|]. eexists; reflexivity.
Qed.
Lemma crop_none_spec s : crop None s = Some s.
Proof. reflexivity. Qed.
Lemma crop_nonpositive_spec z s : (z <= 0)%Z -> crop (Some z) s = Some s.
Proof. intros H. unfold crop. replace (z <=? 0)%Z with true by (symmetry; apply Z.leb_le; lia). reflexivity. Qed.

Lemma crop_succeeds z s v : DInv s -> d_memmap s = false -> d_vel s = Some v -> (0 < z)%Z -> exists s', crop (Some z) s = Some s'.
Proof.
  intros I Hm Hv Hz. rewrite crop_unfold by assumption. unfold velocity. simpl. rewrite Hv. simpl. rewrite Hm. eexists; reflexivity.
Qed.
Lemma crop_memmap_fails z s v : DInv s -> d_memmap s = true -> d_vel s = Some v -> (0 < z)%Z -> crop (Some z) s = None.
Proof.
  intros I Hm Hv Hz. rewrite crop_unfold by assumption. unfold velocity. simpl. rewrite Hv. simpl. rewrite Hm. reflexivity.
Qed.

Lemma DInv_crop z s s' : DInv s -> crop z s = Some s' -> DInv s'.
Proof.
  intros I. destruct z as [z|]; [|intros [= <-]; assumption].
  destruct (Z_le_gt_dec z 0) as [L|L]; [rewrite crop_nonpositive_spec by lia; intros [= <-]; assumption|].
  intros H. apply crop_spec in H; [|assumption|lia]. destruct H as [_ [_ [_ [_ [H1 [H2 _]]]]]].
  constructor; intros x Hx; congruence.
Qed.
Lemma velocity_mass_facts (s : dyn) w s' : DInv s -> velocity_mass s = Some (w, s') ->
  exists v s1, velocity s = Some (v, s1) /\ w = map massweight v /\ s' = upd_vma s1 (Some w) /\ DInv s'.
Proof.
  intros I. unfold velocity_mass. destruct (d_vma s) as [w0|] eqn:E0.
  - intros [= -> <-]. destruct (di_vma s I w E0) as [v [Ev Ew]]. exists v, s.
    split; [unfold velocity; rewrite Ev; reflexivity|]. split; [assumption|]. split; [|assumption].
    destruct s; simpl in *; subst; reflexivity.
  - destruct (velocity s) as [[v s1]|] eqn:E1; [|discriminate]. intros [= <- <-]. exists v, s1.
    split; [reflexivity|]. split; [reflexivity|]. split; [reflexivity|].
    assert (I1 := DInv_velocity _ _ _ I E1). destruct (held_velocity _ _ _ I E1) as [_ [_ [_ Hv]]].
    constructor; simpl; [apply I1|]. intros w [= <-]. exists v. split; [assumption|reflexivity].
Qed.
Lemma DInv_step o s s' : DInv s -> dstep o s = Some s' -> DInv s'.
Proof.
  intros I. destruct o; unfold dstep.
  - apply DInv_crop; assumption.
  - destruct (trajectory s) as [[t s1]|] eqn:E1; [|discriminate]. intros [= <-]. eapply DInv_trajectory; eassumption.
  - destruct (relative s) as [[t s1]|] eqn:E1; [|discriminate]. intros [= <-]. eapply DInv_relative; eassumption.
  - destruct (velocity s) as [[t s1]|] eqn:E1; [|discriminate]. intros [= <-]. eapply DInv_velocity; eassumption.
  - destruct (velocity_mass s) as [[w s1]|] eqn:E1; [|discriminate]. intros [= <-].
    apply velocity_mass_facts in E1 as [? [? [? [? [? ?]]]]]; assumption.
  - destruct (time_step s) as [[h s1]|] eqn:E1; [|discriminate]. intros [= <-]. apply time_step_facts in E1 as ->.
    constructor; simpl; apply I.
  - unfold mean_displacement. destruct (d_mdm s); [intros [= <-]; assumption|].
    destruct (relative s) as [[t s1]|] eqn:E1; [|discriminate]. intros [= <-].
    assert (I1 := DInv_relative _ _ _ I E1). constructor; simpl; apply I1.
Qed.
Lemma DInv_run h : forall s s', DInv s -> drun h s = Some s' -> DInv s'.
Proof.
  induction h as [|o h IH]; intros s s' I; simpl; [intros [= <-]; assumption|].
  destruct (dstep o s) as [s1|] eqn:E1; [|discriminate]. apply IH. eapply DInv_step; eassumption.
Qed.
Lemma DInv_new tr sc ve en ti mm : DInv (new_dynamics tr sc ve en ti mm).
Proof. constructor; simpl; discriminate. Qed.

(* ------ C07 ------ *)
Lemma crop_api tr sc ve en ti mm h s z s' :
  drun h (new_dynamics tr sc ve en ti mm) = Some s -> (0 < z)%Z -> crop (Some z) s = Some s' ->
  let n := Z.to_nat z in
  held_trajectory unscale s' = option_map (lastn n) (held_trajectory unscale s) /\
  d_energy s' = option_map (lastn n) (d_energy s) /\
  d_time s' = option_map (lastn n) (d_time s) /\
  (forall v, d_vel s = Some v -> option_map fst (velocity s') = Some (lastn n v)).
Proof.
  intros Hr Hz Hc. assert (I := DInv_run h _ s (DInv_new tr sc ve en ti mm) Hr).
  destruct (crop_spec z s s' I Hz Hc) as [H1 [H2 [H3 [H4 _]]]]. repeat split; try assumption.
  intros v Hv. unfold velocity. rewrite (H4 v Hv). reflexivity.
Qed.

Lemma crop_crop_api tr sc ve en ti mm h s z1 z2 s1 s2 s3 :
  drun h (new_dynamics tr sc ve en ti mm) = Some s -> (0 < z1)%Z -> (0 < z2)%Z ->
  (exists v, d_vel s = Some v) ->
  crop (Some z1) s = Some s1 -> crop (Some z2) s1 = Some s2 -> crop (Some (Z.min z1 z2)) s = Some s3 ->
  held_trajectory unscale s2 = held_trajectory unscale s3 /\ d_energy s2 = d_energy s3 /\
  d_time s2 = d_time s3 /\ d_vel s2 = d_vel s3.
Proof.
  intros Hr Hz1 Hz2 [v Hv] C1 C2 C3.
  assert (I := DInv_run h _ s (DInv_new tr sc ve en ti mm) Hr).
  assert (I1 := DInv_crop _ _ _ I C1).
  destruct (crop_spec _ _ _ I Hz1 C1) as [A1 [A2 [A3 [A4 _]]]].
  destruct (crop_spec _ _ _ I1 Hz2 C2) as [B1 [B2 [B3 [B4 _]]]].
  assert (Hz3 : (0 < Z.min z1 z2)%Z) by (apply Z.min_glb_lt; assumption).
  destruct (crop_spec _ _ _ I Hz3 C3) as [D1 [D2 [D3 [D4 _]]]].
  assert (Em : Z.to_nat (Z.min z1 z2) = Nat.min (Z.to_nat z1) (Z.to_nat z2)) by (apply Z2Nat.inj_min). rewrite Em in *.
  rewrite B1, A1, D1, B2, A2, D2, B3, A3, D3, (B4 _ (A4 _ Hv)), (D4 _ Hv), lastn_lastn.
  assert (G : forall X (o : option (list X)), option_map (lastn (Z.to_nat z2)) (option_map (lastn (Z.to_nat z1)) o) =
     option_map (lastn (Nat.min (Z.to_nat z1) (Z.to_nat z2))) o)
    by (intros X [l|]; simpl; [rewrite lastn_lastn|]; reflexivity).
  rewrite !G. repeat split; reflexivity.
Qed.

Lemma crop_memmap_api tr sc ve en ti h s z :
  drun h (new_dynamics tr sc ve en ti true) = Some s -> d_memmap s = true -> (exists v, d_vel s = Some v) -> (0 < z)%Z ->
  crop (Some z) s = None.
Proof.
  intros Hr Hm [v Hv] Hz. eapply crop_memmap_fails; try eassumption.
  eapply DInv_run; [apply DInv_new|eassumption].
Qed.

Lemma drun2 o1 o2 s s1 s2 : dstep o1 s = Some s1 -> dstep o2 s1 = Some s2 -> drun [o1; o2] s = Some s2.
Proof. intros H1 H2. cbn [drun DynamicsModel.drun]. rewrite H1, H2. reflexivity. Qed.

(* ------ C08 ------ *)
Lemma vma_api tr sc ve en ti mm h s w s' :
  drun h (new_dynamics tr sc ve en ti mm) = Some s -> velocity_mass s = Some (w, s') ->
  exists v s1, velocity s = Some (v, s1) /\ w = map massweight v.
Proof.
  intros Hr Hw. assert (I := DInv_run h _ s (DInv_new tr sc ve en ti mm) Hr).
  destruct (velocity_mass_facts s w s' I Hw) as [v [s1 [H1 [H2 _]]]]. exists v, s1; split; assumption.
Qed.

Lemma mdm_flag_stale t ve en ti mm :
  let r := map displace t in
  mean_matrix true r <> mean_matrix false r ->
  exists s s', drun [GetMDM false] (new_dynamics (Some t) None ve en ti mm) = Some s /\
  mean_displacement true s = Some (mean_matrix false r, s') /\ mean_matrix false r <> mean_matrix true r.
Proof. intros r N. eexists. eexists. split; [reflexivity|]. split; [reflexivity|]. congruence. Qed.

Lemma mdm_crop_stale t v en ti n flag :
  (0 < n)%Z ->
  mean_matrix flag (map displace t) <> mean_matrix flag (map displace (lastn (Z.to_nat n) t)) ->
  exists s s', drun [GetMDM flag; Crop (Some n)] (new_dynamics (Some t) None (Some v) en ti false) = Some s /\
  held_trajectory unscale s = Some (lastn (Z.to_nat n) t) /\
  mean_displacement flag s = Some (mean_matrix flag (map displace t), s').
Proof.
  intros Hn N.
  destruct (dstep (GetMDM flag) (new_dynamics (Some t) None (Some v) en ti false)) as [s0|] eqn:E0; [|discriminate].
  assert (I : DInv s0) by (eapply DInv_step; [apply DInv_new|exact E0]).
  injection E0 as E0.
  assert (F1 : d_memmap s0 = false) by (rewrite <- E0; reflexivity).
  assert (F2 : d_vel s0 = Some v) by (rewrite <- E0; reflexivity).
  assert (F3 : d_mdm s0 = Some (mean_matrix flag (map displace t))) by (rewrite <- E0; reflexivity).
  assert (F4 : held_trajectory unscale s0 = Some t) by (rewrite <- E0; reflexivity).
  destruct (crop_succeeds n s0 v I F1 F2 Hn) as [s Hs].
  exists s.
  assert (D : d_mdm s = Some (mean_matrix flag (map displace t))).
  { rewrite crop_unfold in Hs by assumption. unfold velocity, DynamicsModel.velocity in Hs. cbn in Hs. rewrite F2 in Hs. cbn in Hs.
    rewrite F1 in Hs. injection Hs as <-. cbn. exact F3. }
  destruct (crop_spec _ _ _ I Hn Hs) as [H1 _]. rewrite F4 in H1.
  eexists. split; [eapply (drun2 _ _ _ s0); [exact (f_equal Some E0)|exact Hs]|]. split; [exact H1|]. unfold mean_displacement, DynamicsModel.mean_displacement. rewrite D. reflexivity.
Qed.

Lemma step_crop_stale t v en ti n :
  (0 < n)%Z -> is_zero (average_step ti) = false ->
  exists s s', drun [GetStep; Crop (Some n)] (new_dynamics (Some t) None (Some v) en (Some ti) false) = Some s /\
  d_time s = Some (lastn (Z.to_nat n) ti) /\
  time_step s = Some (average_step ti, s').
Proof.
  intros Hn N.
  destruct (dstep GetStep (new_dynamics (Some t) None (Some v) en (Some ti) false)) as [s0|] eqn:E0; [|discriminate].
  assert (I : DInv s0) by (eapply DInv_step; [apply DInv_new|exact E0]).
  injection E0 as E0.
  assert (F1 : d_memmap s0 = false) by (rewrite <- E0; reflexivity).
  assert (F2 : d_vel s0 = Some v) by (rewrite <- E0; reflexivity).
  assert (F3 : d_ts s0 = Some (average_step ti)) by (rewrite <- E0; reflexivity).
  assert (F4 : d_time s0 = Some ti) by (rewrite <- E0; reflexivity).
  destruct (crop_succeeds n s0 v I F1 F2 Hn) as [s Hs].
  exists s.
  assert (D : d_ts s = Some (average_step ti)).
  { rewrite crop_unfold in Hs by assumption. unfold velocity, DynamicsModel.velocity in Hs. cbn in Hs. rewrite F2 in Hs. cbn in Hs.
    rewrite F1 in Hs. injection Hs as <-. cbn. exact F3. }
  destruct (crop_spec _ _ _ I Hn Hs) as [_ [_ [H1 _]]]. rewrite F4 in H1.
  eexists. split; [eapply (drun2 _ _ _ s0); [exact (f_equal Some E0)|exact Hs]|]. split; [exact H1|].
  unfold time_step, DynamicsModel.time_step. rewrite D, N. reflexivity.
Qed.

(** without crop and with one flag, the matrix and the time step are right after any history *)
Definition no_crop (flag : bool) (o : dop) : bool :=
  match o with Crop _ => false | GetMDM f => Bool.eqb f flag | _ => true end.
Record NC (flag : bool) (t0 : option (list P)) (ti0 : option (list T)) (s : dyn) : Prop := {
  nc_inv : DInv s;
  nc_t : held_trajectory unscale s = t0;
  nc_ti : d_time s = ti0;
  nc_m : forall m, d_mdm s = Some m -> exists t, t0 = Some t /\ m = mean_matrix flag (map displace t);
  nc_s : forall v, d_ts s = Some v -> exists l, ti0 = Some l /\ v = average_step l
}.
Lemma NC_traj flag t0 ti0 s t s' : NC flag t0 ti0 s -> trajectory s = Some (t, s') -> NC flag t0 ti0 s'.
Proof.
  intros N H. assert (I := DInv_trajectory _ _ _ (nc_inv _ _ _ _ N) H). apply trajectory_facts in H as [H ->].
  destruct N. constructor; simpl; try assumption. unfold held_trajectory; simpl. congruence.
Qed.
Lemma NC_rel flag t0 ti0 s t s' : NC flag t0 ti0 s -> relative s = Some (t, s') -> NC flag t0 ti0 s'.
Proof.
  intros N H. assert (I := DInv_relative _ _ _ (nc_inv _ _ _ _ N) H).
  apply relative_facts in H as [q [Hq [Hr ->]]]; [|apply N]. destruct N. constructor; simpl; try assumption.
  unfold held_trajectory; simpl. congruence.
Qed.
Lemma NC_ts flag t0 ti0 s h s' : NC flag t0 ti0 s -> time_step s = Some (h, s') ->
  NC flag t0 ti0 s' /\ exists l, ti0 = Some l /\ h = average_step l.
Proof.
  intros N. unfold time_step, DynamicsModel.time_step.
  assert (K : (exists l, d_time s = Some l /\ h = average_step l /\ s' = upd_ts s (Some h)) -> NC flag t0 ti0 s' /\ exists l, ti0 = Some l /\ h = average_step l).
  { intros [l [E1 [E2 ->]]]. rewrite (nc_ti _ _ _ _ N) in E1. split; [|exists l; split; assumption].
    destruct N. constructor; simpl; try assumption.
    - constructor; simpl; apply nc_inv0.
    - intros v [= <-]. exists l; split; assumption. }
  destruct (d_ts s) as [v|] eqn:Ev.
  - destruct (is_zero v).
    + destruct (d_time s) as [l|]; [|discriminate]. intros [= <- <-]. apply K. exists l; repeat split.
    + intros [= <- <-]. split; [assumption|]. apply (nc_s _ _ _ _ N); assumption.
  - destruct (d_time s) as [l|]; [|discriminate]. intros [= <- <-]. apply K. exists l; repeat split.
Qed.
Lemma NC_vel flag t0 ti0 s v s' : NC flag t0 ti0 s -> velocity s = Some (v, s') -> NC flag t0 ti0 s'.
Proof.
  intros N. unfold velocity, DynamicsModel.velocity. destruct (d_vel s) eqn:Ev; [intros [= _ <-]; assumption|].
  destruct (DynamicsModel.relative _ _ s) as [[r s1]|] eqn:E1; [|discriminate]. assert (N1 := NC_rel _ _ _ _ _ _ N E1).
  destruct (DynamicsModel.time_step _ _ s1) as [[h s2]|] eqn:E2; [|discriminate].
  assert (V1 : d_vma s2 = None).
  { apply relative_facts in E1 as [q [_ [_ ->]]]; [|apply N]. apply time_step_facts in E2 as ->. simpl.
    destruct (d_vma s) as [w|] eqn:Ew; [|reflexivity]. destruct (di_vma s (nc_inv _ _ _ _ N) w Ew) as [? [? _]]. congruence. }
  destruct (NC_ts _ _ _ _ _ _ N1 E2) as [N2 _]. intros [= _ <-]. destruct N2. constructor; simpl; try assumption.
  constructor; simpl; [apply nc_inv0|]. intros w Hw; congruence.
Qed.
Lemma NC_step flag t0 ti0 o s s' : no_crop flag o = true -> NC flag t0 ti0 s -> dstep o s = Some s' -> NC flag t0 ti0 s'.
Proof.
  intros Ho N. destruct o; simpl in Ho; try discriminate; unfold dstep, DynamicsModel.dstep.
  - destruct (DynamicsModel.trajectory _ s) as [[t s1]|] eqn:E1; [|discriminate]. intros [= <-]. eapply NC_traj; eassumption.
  - destruct (DynamicsModel.relative _ _ s) as [[t s1]|] eqn:E1; [|discriminate]. intros [= <-]. eapply NC_rel; eassumption.
  - destruct (DynamicsModel.velocity _ _ _ _ _ s) as [[t s1]|] eqn:E1; [|discriminate]. intros [= <-]. eapply NC_vel; eassumption.
  - destruct (DynamicsModel.velocity_mass _ _ _ _ _ _ s) as [[w s1]|] eqn:E1; [|discriminate]. intros [= <-].
    destruct (velocity_mass_facts _ _ _ (nc_inv _ _ _ _ N) E1) as [v [s2 [A1 [A2 [A3 A4]]]]].
    assert (N2 := NC_vel _ _ _ _ _ _ N A1). subst s1. destruct N2. constructor; simpl in *; assumption.
  - destruct (DynamicsModel.time_step _ _ s) as [[t s1]|] eqn:E1; [|discriminate]. intros [= <-]. eapply NC_ts; eassumption.
  - apply Bool.eqb_prop in Ho. subst flag0.
    destruct (DynamicsModel.mean_displacement _ _ _ flag s) as [[m s1]|] eqn:E1; [|discriminate]. intros [= <-].
    unfold DynamicsModel.mean_displacement in E1. destruct (d_mdm s); [injection E1 as _ <-; assumption|].
    destruct (DynamicsModel.relative _ _ s) as [[r s2]|] eqn:E2; [|discriminate]. assert (N2 := NC_rel _ _ _ _ _ _ N E2).
    injection E1 as <- <-. destruct (relative_facts _ _ _ (nc_inv _ _ _ _ N) E2) as [q [Hq [Hr _]]].
    destruct N2. constructor; simpl; try assumption.
    + constructor; simpl; apply nc_inv0.
    + intros m' [= <-]. exists q. rewrite <- (nc_t _ _ _ _ N), Hq, Hr. split; reflexivity.
Qed.
Lemma NC_run flag t0 ti0 h : forall s s', forallb (no_crop flag) h = true -> NC flag t0 ti0 s -> drun h s = Some s' -> NC flag t0 ti0 s'.
Proof.
  induction h as [|o h IH]; intros s s' Hh N; simpl; [intros [= <-]; assumption|].
  simpl in Hh. apply andb_true_iff in Hh as [Ho Hh].
  destruct (dstep o s) as [s1|] eqn:E1; [|discriminate]. apply IH; [assumption|]. eapply NC_step; eassumption.
Qed.
Lemma caches_without_crop tr sc ve en ti mm h s flag :
  forallb (no_crop flag) h = true ->
  drun h (new_dynamics tr sc ve en ti mm) = Some s ->
  (forall m s', mean_displacement flag s = Some (m, s') ->
     exists t, held_trajectory unscale (@new_dynamics P V E T M tr sc ve en ti mm) = Some t /\ m = mean_matrix flag (map displace t)) /\
  (forall d s', time_step s = Some (d, s') -> exists l, ti = Some l /\ d = average_step l).
Proof.
  intros Hh Hr.
  assert (N0 : NC flag (held_trajectory unscale (@new_dynamics P V E T M tr sc ve en ti mm)) ti (new_dynamics tr sc ve en ti mm)).
  { constructor; try reflexivity; try (simpl; discriminate). apply DInv_new. }
  assert (N := NC_run _ _ _ h _ s Hh N0 Hr). split.
  - intros m s'. unfold mean_displacement, DynamicsModel.mean_displacement. destruct (d_mdm s) as [m0|] eqn:Em.
    + intros [= -> <-]. apply (nc_m _ _ _ _ N); assumption.
    + destruct (DynamicsModel.relative _ _ s) as [[r s2]|] eqn:E2; [|discriminate]. intros [= <- <-].
      destruct (relative_facts _ _ _ (nc_inv _ _ _ _ N) E2) as [q [Hq [Hr' _]]].
      exists q. rewrite <- (nc_t _ _ _ _ N), Hq, Hr'. split; reflexivity.
  - intros d s' H. apply (NC_ts _ _ _ _ _ _ N) in H as [_ H]. exact H.
Qed.
End Dyn.

(** velocities not loaded from a file: differentiating and cropping do not commute *)
Lemma gradient_crop_order :
  let run := @drun R R unit R unit (fun x => x) (fun x => x) np_gradient (fun x => x) (fun _ => 1%R) (fun _ => false) (fun _ _ => tt) in
  let vel := @velocity R R unit R unit (fun x => x) (fun x => x) np_gradient (fun _ => 1%R) (fun _ => false) in
  let s0 := new_dynamics (Some [0%R; 1%R; 4%R]) None None None (Some [0%R; 1%R; 2%R]) false in
  exists s1 s2 v1 v2, run [GetVelocity; Crop (Some 2%Z)] s0 = Some s1 /\ run [Crop (Some 2%Z)] s0 = Some s2 /\
  option_map fst (vel s1) = Some v1 /\ option_map fst (vel s2) = Some v2 /\ v1 <> v2.
Proof.
  cbv zeta. do 4 eexists. split; [lazy -[Rminus Rdiv Rmult IZR]; reflexivity|]. split; [lazy -[Rminus Rdiv Rmult IZR]; reflexivity|]. split; [lazy -[Rminus Rdiv Rmult IZR]; reflexivity|].
  split; [lazy -[Rminus Rdiv Rmult IZR]; reflexivity|]. cbn. intros D. injection D. intros. lra.
Qed.

(* ---------- C09 ---------- *)
Open Scope R_scope.
Lemma step_sum_tele t d : d <> 0 -> t <> [] -> step_sum t d = (last t 0 - hd 0 t) / d.
Proof.
  intros Hd. induction t as [|a t IH]; [congruence|]. intros _.
  destruct t as [|b t]; [simpl; field; assumption|].
  change (step_sum (a :: b :: t) d) with ((b - a) / d + step_sum (b :: t) d). rewrite IH by discriminate. change (last (a :: b :: t) 0) with (last (b :: t) 0). cbn [hd]. field. assumption.
Qed.
Lemma round8_error x : Rabs (round8 x - x) <= / 2 * / 100000000.
Proof.
  unfold round8. pose proof (around_half (x * 100000000)).
  apply Rabs_le. split; lra.
Qed.
Lemma round8_exact k : round8 (IZR k / 100000000) = IZR k / 100000000.
Proof.
  unfold round8. replace (IZR k / 100000000 * 100000000) with (IZR k) by field. rewrite around_IZR. reflexivity.
Qed.
Lemma average_time_step_spec t : (2 <= length t)%nat ->
  Rabs (average_time_step t - (last t 0 - hd 0 t) / INR (length t - 1)) <= / 2 * / 100000000.
Proof.
  intros H. unfold average_time_step.
  rewrite step_sum_tele; [apply round8_error|apply not_0_INR; lia|destruct t; [simpl in H; lia|discriminate]].
Qed.
Lemma average_time_step_uniform t0 k n : (2 <= n)%nat ->
  average_time_step (map (fun i => t0 + INR i * (IZR k / 100000000)) (seq 0 n)) = IZR k / 100000000.
Proof.
  intros H. unfold average_time_step. rewrite map_length, seq_length.
  rewrite step_sum_tele; [|apply not_0_INR; lia|destruct n; [lia|discriminate]].
  destruct n as [|n]; [lia|].
  replace (last (map (fun i => t0 + INR i * (IZR k / 100000000)) (seq 0 (S n))) 0) with (t0 + INR n * (IZR k / 100000000)).
  - replace (hd 0 (map (fun i : nat => t0 + INR i * (IZR k / 100000000)) (seq 0 (S n)))) with t0 by (simpl; ring).
    replace (S n - 1)%nat with n by lia.
    replace ((t0 + INR n * (IZR k / 100000000) - t0) / INR n) with (IZR k / 100000000); [apply round8_exact|].
    field. apply not_0_INR; lia.
  - rewrite seq_S, map_app. cbn [map]. rewrite last_last. reflexivity.
Qed.
Lemma average_time_step_short t : (length t < 2)%nat -> average_time_step t = 0.
Proof.
  intros H. assert (E : step_sum t (INR (length t - 1)) = 0) by (destruct t as [|a [|b t]]; simpl in *; try reflexivity; lia).
  unfold average_time_step. rewrite E. replace 0 with (IZR 0 / 100000000) by lra. apply round8_exact.
Qed.

(* ---------- C14 ---------- *)
Lemma vnorm_nonneg v : 0 <= vnorm v. Proof. apply sqrt_pos. Qed.
Lemma supercell_matrix_nearest tol A a m0 m1 m2 : supercell_matrix tol A a = Some (m0, m1, m2) ->
  Rabs (IZR m0 - vnorm (r0 A) / vnorm (r0 a)) <= 1/2 /\
  Rabs (IZR m1 - vnorm (r1 A) / vnorm (r1 a)) <= 1/2 /\
  Rabs (IZR m2 - vnorm (r2 A) / vnorm (r2 a)) <= 1/2.
Proof.
  unfold supercell_matrix. destruct (Rlt_dec _ _); [discriminate|]. intros [= <- <- <-].
  repeat split; match goal with |- Rabs (IZR (around ?q) - _) <= _ => pose proof (around_half q); apply Rabs_le; lra end.
Qed.
Lemma supercell_matrix_same_sign tol A a m0 m1 m2 : 0 < vnorm (r0 a) -> 0 < vnorm (r0 A) ->
  supercell_matrix tol A a = Some (m0, m1, m2) ->
  let q0 := vnorm (r0 A) / vnorm (r0 a) in
  let q1 := vnorm (r1 A) / vnorm (r1 a) in
  let q2 := vnorm (r2 A) / vnorm (r2 a) in
  (q0 <= IZR m0 /\ q1 <= IZR m1 /\ q2 <= IZR m2 \/ IZR m0 <= q0 /\ IZR m1 <= q1 /\ IZR m2 <= q2) ->
  Rabs (IZR m0 - q0) <= tol * vnorm (V3 q0 q1 q2) /\
  Rabs (IZR m1 - q1) <= tol * vnorm (V3 q0 q1 q2) /\
  Rabs (IZR m2 - q2) <= tol * vnorm (V3 q0 q1 q2).
Proof.
  intros Ha HA. unfold supercell_matrix. cbv zeta.
  set (q0 := vnorm (r0 A) / vnorm (r0 a)). set (q1 := vnorm (r1 A) / vnorm (r1 a)). set (q2 := vnorm (r2 A) / vnorm (r2 a)).
  assert (Q0 : 0 < q0) by (apply Rdiv_lt_0_compat; assumption).
  assert (Qn : 0 < vnorm (V3 q0 q1 q2)).
  { apply sqrt_lt_R0. unfold vnorm2, vdot; simpl. nra. }
  destruct (Rlt_dec _ _) as [|N]; [discriminate|]. intros [= <- <- <-].
  apply Rnot_lt_le in N.
  set (S := (IZR (around q0) - q0) + (IZR (around q1) - q1) + (IZR (around q2) - q2)) in *.
  assert (B : Rabs S <= tol * vnorm (V3 q0 q1 q2)).
  { unfold Rdiv in N. rewrite Rabs_mult, (Rabs_right (/ _)) in N by (left; apply Rinv_0_lt_compat; assumption).
    apply Rmult_le_reg_r with (/ vnorm (V3 q0 q1 q2)); [apply Rinv_0_lt_compat; assumption|].
    rewrite Rmult_assoc, Rinv_r by lra. lra. }
  apply Rabs_def2 || idtac.
  intros [[H0 [H1 H2]]|[H0 [H1 H2]]].
  - assert (Rabs S = S) by (apply Rabs_right; unfold S; lra). rewrite H in B.
    rewrite !Rabs_right by lra. unfold S in B. lra.
  - assert (Rabs S = - S) by (apply Rabs_left1; unfold S; lra). rewrite H in B.
    rewrite !Rabs_left1 by lra. unfold S in B. lra.
Qed.
Lemma vnorm_axis0 a : 0 <= a -> vnorm (V3 a 0 0) = a.
Proof. intros H. unfold vnorm, vnorm2, vdot; simpl. replace (a*a+0*0+0*0) with (a*a) by ring. apply sqrt_square; assumption. Qed.
Lemma vnorm_axis1 a : 0 <= a -> vnorm (V3 0 a 0) = a.
Proof. intros H. unfold vnorm, vnorm2, vdot; simpl. replace (0*0+a*a+0*0) with (a*a) by ring. apply sqrt_square; assumption. Qed.
Lemma vnorm_axis2 a : 0 <= a -> vnorm (V3 0 0 a) = a.
Proof. intros H. unfold vnorm, vnorm2, vdot; simpl. replace (0*0+0*0+a*a) with (a*a) by ring. apply sqrt_square; assumption. Qed.
Lemma supercell_matrix_cancel : supercell_matrix (1/100) (mdiag (13/10) (7/10) 1) mid = Some (1%Z, 1%Z, 1%Z).
Proof.
  unfold supercell_matrix. simpl r0; simpl r1; simpl r2.
  rewrite !vnorm_axis0, !vnorm_axis1, !vnorm_axis2 by lra.
  replace (around (13/10/1)) with 1%Z by (symmetry; apply around_nearest; lra).
  replace (around (7/10/1)) with 1%Z by (symmetry; apply around_nearest; lra).
  replace (around (1/1)) with 1%Z by (symmetry; apply around_nearest; lra).
  match goal with |- context [Rabs ?u] => replace u with 0 end.
  - rewrite Rabs_R0. destruct (Rlt_dec _ _); [lra|reflexivity].
  - unfold Rdiv. match goal with |- 0 = ?a * _ => replace a with 0 by lra end. ring.
Qed.
Lemma supercell_matrix_zero : exists A a, 0 < vnorm (r0 A) /\ 0 < vnorm (r1 A) /\ 0 < vnorm (r2 A) /\ a = mid /\
  supercell_matrix (1/100) A a = Some (0%Z, 10%Z, 10%Z).
Proof.
  exists (mdiag (1/10) 10 10), mid. simpl r0; simpl r1; simpl r2.
  rewrite !vnorm_axis0, !vnorm_axis1, !vnorm_axis2 by lra. repeat (split; [lra|]). split; [reflexivity|].
  unfold supercell_matrix. simpl r0; simpl r1; simpl r2. rewrite !vnorm_axis0, !vnorm_axis1, !vnorm_axis2 by lra.
  replace (around (1/10/1)) with 0%Z by (symmetry; apply around_nearest; lra).
  replace (around (10/1)) with 10%Z by (symmetry; apply around_nearest; lra).
  destruct (Rlt_dec _ _) as [L|]; [exfalso|reflexivity].
  assert (N : 10 <= vnorm (V3 (1/10/1) (10/1) (10/1))).
  { unfold vnorm. apply Rle_trans with (sqrt (10 * 10)); [rewrite sqrt_square; lra|]. apply sqrt_le_1_alt. unfold vnorm2, vdot; simpl. lra. }
  revert L N. generalize (vnorm (V3 (1/10/1) (10/1) (10/1))). intros w L N.
  unfold Rdiv in L at 2. rewrite Rabs_mult, (Rabs_right (/ w)) in L by (left; apply Rinv_0_lt_compat; lra).
  rewrite Rabs_left in L by lra.
  apply (Rmult_lt_compat_r w) in L; [|lra]. rewrite Rmult_assoc, Rinv_l in L by lra. lra.
Qed.

(* ---------- C15, C16 ---------- *)
Lemma vsum_app a b : vsum (a ++ b) = vadd (vsum a) (vsum b).
Proof. induction a as [|x a IH]; simpl; [rewrite vadd_0_l; reflexivity|]. rewrite IH. vec_ring. Qed.
Lemma madd_assoc a b c : madd (madd a b) c = madd a (madd b c). Proof. vec_ring. Qed.
Lemma madd_comm a b : madd a b = madd b a. Proof. vec_ring. Qed.
Lemma madd_0_l a : madd mzero a = a. Proof. unfold mzero. vec_ring. Qed.
Lemma madd_0_r a : madd a mzero = a. Proof. unfold mzero. vec_ring. Qed.
Lemma msum_app a b : msum (a ++ b) = madd (msum a) (msum b).
Proof. induction a as [|x a IH]; simpl; [rewrite madd_0_l; reflexivity|]. rewrite IH. symmetry; apply madd_assoc. Qed.
Lemma mscale_madd k a b : mscale k (madd a b) = madd (mscale k a) (mscale k b). Proof. vec_ring. Qed.
Lemma mscale_mscale j k a : mscale j (mscale k a) = mscale (j * k) a. Proof. vec_ring. Qed.
Lemma mscale_mzero k : mscale k mzero = mzero. Proof. unfold mzero. vec_ring. Qed.

Lemma unit_average_acc ncells atoms t : forall acc,
  fold_left (fun (acc : nat -> vec) (a : nat * vec) => let '(ty, u) := a in
     fun t => if Nat.eqb t ty then vadd (acc t) (vscale (/ INR ncells) u) else acc t) atoms acc t
  = vadd (acc t) (vscale (/ INR ncells) (vsum (atoms_of_type atoms t))).
Proof.
  induction atoms as [|[ty u] l IH]; intros acc; simpl.
  - vec_ring.
  - rewrite IH. unfold atoms_of_type at 2. cbn [flat_map fst snd]. fold (atoms_of_type l t).
    rewrite (Nat.eqb_sym ty t). destruct (Nat.eqb t ty); simpl; vec_ring.
Qed.
Lemma unit_average_spec ncells atoms t :
  unit_average ncells atoms t = vscale (/ INR ncells) (vsum (atoms_of_type atoms t)).
Proof. unfold unit_average. rewrite unit_average_acc. apply vadd_0_l. Qed.

Lemma unit_average_mean ncells atoms t k : (0 < ncells)%nat -> (0 < k)%nat ->
  length (atoms_of_type atoms t) = (k * ncells)%nat ->
  unit_average ncells atoms t = vscale (INR k) (vmean (atoms_of_type atoms t)).
Proof.
  intros Hn Hk HL. rewrite unit_average_spec. unfold vmean. rewrite HL, mult_INR.
  assert (INR ncells <> 0) by (apply not_0_INR; lia). assert (INR k <> 0) by (apply not_0_INR; lia).
  generalize (vsum (atoms_of_type atoms t)). intros s. unfold vscale; apply vec_eq; simpl; field; split; assumption.
Qed.

Lemma fold_into_cell_spec inv cell x : is_inverse (inv (mT cell)) (mT cell) ->
  exists a b c : Z, fold_into_cell inv cell x = vsub x (vmul (V3 (IZR a) (IZR b) (IZR c)) cell) /\
  forall f, fold_into_cell inv cell x = vmul f cell ->
    0 <= vx f <= 1 /\ 0 <= vy f <= 1 /\ 0 <= vz f <= 1.
Proof.
  intros [Hi1 Hi2]. unfold fold_into_cell.
  set (d := mulv (inv (mT cell)) (vsub x (vscale (1/2) (vmul (V3 1 1 1) cell)))).
  exists (around (vx d)), (around (vy d)), (around (vz d)). split; [reflexivity|].
  intros f Hf.
  assert (E : d = vsub (vadd f (V3 (IZR (around (vx d))) (IZR (around (vy d))) (IZR (around (vz d))))) (V3 (1/2) (1/2) (1/2))).
  { set (n := V3 (IZR (around (vx d))) (IZR (around (vy d))) (IZR (around (vz d)))) in *.
    assert (Ex : x = vmul (vadd f n) cell).
    { replace x with (vadd (vsub x (vmul n cell)) (vmul n cell)) by vec_ring. rewrite Hf. vec_ring. }
    unfold d. rewrite Ex.
    replace (vsub (vmul (vadd f n) cell) (vscale (1 / 2) (vmul (V3 1 1 1) cell)))
      with (mulv (mT cell) (vsub (vadd f n) (V3 (1/2) (1/2) (1/2)))).
    - rewrite mulv_mmul, Hi2, mulv_mid. reflexivity.
    - clear. rewrite <- vmul_mT. unfold vmul, vadd, vsub, vscale. apply vec_eq; simpl; field. }
  pose proof (around_half (vx d)); pose proof (around_half (vy d)); pose proof (around_half (vz d)).
  assert (Ex : vx d = vx f + IZR (around (vx d)) - 1/2) by (rewrite E at 1; reflexivity).
  assert (Ey : vy d = vy f + IZR (around (vy d)) - 1/2) by (rewrite E at 1; reflexivity).
  assert (Ez : vz d = vz f + IZR (around (vz d)) - 1/2) by (rewrite E at 1; reflexivity).
  repeat split; lra.
Qed.

(** C16 *)
Definition contribution (flag : bool) (ds : list vec) : mat :=
  msum (map (fun u => outer u (vsub u (if flag then vmean ds else vzero))) ds).
Lemma mdm_fold flag counts atoms t : forall acc,
  fold_left (mdm_step flag counts) atoms acc t =
  madd (acc t) (mscale (/ INR (counts t))
    (msum (flat_map (fun a => if Nat.eqb (fst a) t then [contribution flag (snd a)] else []) atoms))).
Proof.
  induction atoms as [|[ty ds] l IH]; intros acc; simpl.
  - rewrite mscale_mzero, madd_0_r. reflexivity.
  - rewrite IH. unfold mdm_step. rewrite (Nat.eqb_sym ty t). destruct (Nat.eqb_spec t ty) as [->|N]; simpl.
    + rewrite mscale_madd, madd_assoc. reflexivity.
    + reflexivity.
Qed.

Lemma quad_madd A B u : quad (madd A B) u = quad A u + quad B u.
Proof. unfold quad, madd, mulv, vdot, vadd; simpl. ring. Qed.
Lemma quad_mscale k A u : quad (mscale k A) u = k * quad A u.
Proof. unfold quad, mscale, mulv, vdot, vscale; simpl. ring. Qed.
Lemma quad_msum l u : quad (msum l) u = fold_right Rplus 0 (map (fun A => quad A u) l).
Proof.
  induction l as [|A l IH]; simpl; [unfold quad, mzero, mulv, vdot; simpl; ring|].
  rewrite quad_madd, IH. reflexivity.
Qed.
Lemma symmetric_madd A B : symmetric A -> symmetric B -> symmetric (madd A B).
Proof.
  unfold symmetric. intros HA HB. transitivity (madd (mT A) (mT B)); [vec_ring|rewrite HA, HB; reflexivity].
Qed.
Lemma symmetric_mscale k A : symmetric A -> symmetric (mscale k A).
Proof. unfold symmetric. intros HA. transitivity (mscale k (mT A)); [vec_ring|rewrite HA; reflexivity]. Qed.
Lemma symmetric_mzero : symmetric mzero. Proof. reflexivity. Qed.
Lemma symmetric_outer u : symmetric (outer u u).
Proof. unfold symmetric, outer. vec_ring. Qed.
Lemma quad_outer u v : quad (outer u u) v = (vdot u v) * (vdot u v).
Proof. unfold quad, outer, mulv, vdot, vscale; simpl. ring. Qed.
Lemma symmetric_msum l : Forall symmetric l -> symmetric (msum l).
Proof. induction 1; simpl; [apply symmetric_mzero|apply symmetric_madd; assumption]. Qed.

Lemma mean_deviation_zero ds : ds <> [] -> vsum (map (fun u => vsub u (vmean ds)) ds) = vzero.
Proof.
  intros N. unfold vmean. set (m := vscale (/ INR (length ds)) (vsum ds)).
  assert (G : forall l, vsum (map (fun u => vsub u m) l) = vsub (vsum l) (vscale (INR (length l)) m)).
  { induction l as [|u l IH]; [simpl; vec_ring|]. cbn [map vsum fold_right]. fold (vsum (map (fun u => vsub u m) l)). fold (vsum l).
    rewrite IH. cbn [length]. rewrite S_INR. vec_ring. }
  rewrite G. unfold m. assert (INR (length ds) <> 0) by (apply not_0_INR; destruct ds; [congruence|discriminate]).
  generalize (vsum ds). intros s. unfold vsub, vscale, vzero. apply vec_eq; simpl; field; assumption.
Qed.
Lemma outer_sum_const c l : msum (map (fun u => outer c u) l) = outer c (vsum l).
Proof. induction l as [|u l IH]; simpl; [unfold outer, mzero; vec_ring|]. rewrite IH. unfold outer. vec_ring. Qed.
Lemma contribution_cov ds : contribution true ds =
  msum (map (fun u => outer (vsub u (vmean ds)) (vsub u (vmean ds))) ds).
Proof.
  unfold contribution. destruct ds as [|d ds']; [reflexivity|]. set (ds := d :: ds'). set (m := vmean ds).
  assert (E : msum (map (fun u => outer u (vsub u m)) ds) =
    madd (msum (map (fun u => outer (vsub u m) (vsub u m)) ds)) (msum (map (fun u => outer m (vsub u m)) ds))).
  { generalize ds. induction ds0 as [|u l IH]; simpl; [rewrite madd_0_r; reflexivity|]. rewrite IH.
    generalize (msum (map (fun u0 => outer (vsub u0 m) (vsub u0 m)) l)) (msum (map (fun u0 => outer m (vsub u0 m)) l)).
    intros A B. unfold outer. vec_ring. }
  rewrite E.
  assert (Z : msum (map (fun u => outer m (vsub u m)) ds) = mzero).
  { rewrite <- (map_map (fun u => vsub u m) (fun v => outer m v)), outer_sum_const.
    unfold m. rewrite mean_deviation_zero by discriminate. unfold outer, vzero, mzero. vec_ring. }
  rewrite Z, madd_0_r. reflexivity.
Qed.
Lemma contribution_plain ds : contribution false ds = msum (map (fun u => outer u u) ds).
Proof.
  unfold contribution. f_equal. apply map_ext. intros u. f_equal. vec_ring.
Qed.
Lemma contribution_psd flag ds u : symmetric (contribution flag ds) /\ 0 <= quad (contribution flag ds) u.
Proof.
  assert (G : forall f : vec -> vec, symmetric (msum (map (fun w => outer (f w) (f w)) ds)) /\
    0 <= quad (msum (map (fun w => outer (f w) (f w)) ds)) u).
  { intros f. split.
    - apply symmetric_msum, Forall_forall. intros A HA. apply in_map_iff in HA as [w [<- _]]. apply symmetric_outer.
    - rewrite quad_msum, map_map. induction ds as [|w l IH]; simpl; [lra|]. rewrite quad_outer.
      pose proof (Rle_0_sqr (vdot (f w) u)) as S. unfold Rsqr in S. lra. }
  destruct flag; [rewrite contribution_cov; apply (G (fun w => vsub w (vmean ds)))|rewrite contribution_plain; apply (G (fun w => w))].
Qed.
Lemma mean_displacement_psd flag counts ncells ndata atoms t u :
  let A := mean_displacement_matrix flag counts ncells ndata atoms t in
  symmetric A /\ 0 <= quad A u /\ 0 <= vx (r0 A) /\ 0 <= vy (r1 A) /\ 0 <= vz (r2 A).
Proof.
  intros A.
  assert (G : forall u, symmetric A /\ 0 <= quad A u).
  { intros w. unfold A, mean_displacement_matrix. rewrite mdm_fold, madd_0_l.
    set (l := flat_map _ atoms).
    assert (Fl : Forall (fun B => symmetric B /\ 0 <= quad B w) l).
    { apply Forall_forall. intros B HB. apply in_flat_map in HB as [[ty ds] [_ HB]]. simpl in HB.
      destruct (Nat.eqb ty t); [|destruct HB]. destruct HB as [<-|[]]. apply contribution_psd. }
    assert (S : symmetric (msum l)) by (apply symmetric_msum; eapply Forall_impl; [|exact Fl]; simpl; intros ? [? ?]; assumption).
    assert (Q : 0 <= quad (msum l) w).
    { rewrite quad_msum. clear -Fl. induction Fl as [|B l [_ H] _ IH]; simpl; lra. }
    split; [apply symmetric_mscale, symmetric_mscale; assumption|].
    rewrite !quad_mscale.
    assert (P : forall n : nat, 0 <= / INR n).
    { intros n. destruct n; [simpl; rewrite Rinv_0; lra|]. left; apply Rinv_0_lt_compat, lt_0_INR; lia. }
    assert (P2 : 0 <= / (INR ncells * INR ndata)) by (rewrite <- mult_INR; apply P).
    apply Rmult_le_pos; [assumption|]. apply Rmult_le_pos; [apply P|assumption]. }
  split; [apply (G u)|]. split; [apply G|].
  clearbody A. repeat split.
  - destruct (G (V3 1 0 0)) as [_ H]. unfold quad, mulv, vdot in H; simpl in H. lra.
  - destruct (G (V3 0 1 0)) as [_ H]. unfold quad, mulv, vdot in H; simpl in H. lra.
  - destruct (G (V3 0 0 1)) as [_ H]. unfold quad, mulv, vdot in H; simpl in H. lra.
Qed.

Lemma displacements_length atoms t ndata : Forall (fun a => length (snd a) = ndata) atoms ->
  length (displacements_of_type atoms t) = (count_occ Nat.eq_dec (map fst atoms) t * ndata)%nat.
Proof.
  induction 1 as [|[ty ds] l H _ IH]; [reflexivity|]. unfold displacements_of_type in *.
  cbn [flat_map map fst snd count_occ]. rewrite app_length, IH. cbn [snd] in H.
  destruct (Nat.eq_dec ty t) as [->|N]; [rewrite Nat.eqb_refl|replace (Nat.eqb ty t) with false by (symmetry; apply Nat.eqb_neq; assumption)];
    cbn [length]; [rewrite H|]; ring.
Qed.
Lemma mean_displacement_average counts ncells ndata atoms t :
  Forall (fun a => length (snd a) = ndata) atoms ->
  count_occ Nat.eq_dec (map fst atoms) t = (counts t * ncells)%nat ->
  (0 < counts t)%nat -> (0 < ncells)%nat -> (0 < ndata)%nat ->
  mean_displacement_matrix false counts ncells ndata atoms t =
  mmean (map (fun u => outer u u) (displacements_of_type atoms t)).
Proof.
  intros HF HC H1 H2 H3. unfold mean_displacement_matrix, mmean. rewrite map_length, (displacements_length _ _ ndata) by assumption.
  rewrite HC, mdm_fold, madd_0_l, mscale_mscale, !mult_INR.
  assert (E : msum (flat_map (fun a : nat * list vec => if Nat.eqb (fst a) t then [contribution false (snd a)] else []) atoms)
            = msum (map (fun u => outer u u) (displacements_of_type atoms t))).
  { clear. induction atoms as [|[ty ds] l IH]; simpl; [reflexivity|]. rewrite map_app, !msum_app, IH.
    destruct (Nat.eqb ty t); simpl; [rewrite contribution_plain, madd_0_r|]; reflexivity. }
  rewrite E. f_equal. field. repeat split; apply not_0_INR; lia.
Qed.
Lemma mean_displacement_covariance counts ncells ndata atoms t :
  mean_displacement_matrix true counts ncells ndata atoms t =
  mscale (/ (INR ncells * INR ndata) * / INR (counts t))
   (msum (flat_map (fun a => if Nat.eqb (fst a) t
      then map (fun u => outer (vsub u (vmean (snd a))) (vsub u (vmean (snd a)))) (snd a) else []) atoms)).
Proof.
  unfold mean_displacement_matrix. rewrite mdm_fold, madd_0_l, mscale_mscale. f_equal.
  induction atoms as [|[ty ds] l IH]; simpl; [reflexivity|]. rewrite !msum_app, IH.
  destruct (Nat.eqb ty t); simpl; [rewrite contribution_cov, madd_0_r|]; reflexivity.
Qed.
