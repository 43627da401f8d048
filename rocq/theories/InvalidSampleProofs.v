From Verif Require Import MemModel MemFloatModel MemFloatProofs CorrelationModel InvalidSampleModel.
From Flocq Require Import Core BinarySingleNaN.
From Coq Require Import Reals ZArith List Lia.
Import ListNotations.
Open Scope nat_scope.

Ltac loop I E := match type of E with for_ ?a ?n ?b ?s = Some ?s' => cut (I (a + n) s'); [clear E; intros E; cbv beta in E|refine (for_inv I b n a s s' _ _ E); cbv beta] end.
Definition bad (x : float64) : Prop := fin x = false.
Lemma bad_dec (x : float64) : bad x \/ fin x = true. Proof. unfold bad. destruct (fin x); [right|left]; reflexivity. Qed.
Lemma not_fin (x : float64) : (fin x = true -> False) -> bad x. Proof. intros H. destruct (bad_dec x) as [B|F]; [exact B|destruct (H F)]. Qed.
Ltac byfin := apply not_fin; intros ?F.
Lemma bad_fin (x : float64) (P : Prop) : bad x -> fin x = true -> P. Proof. unfold bad. congruence. Qed.

(** ---------- mem.c ---------- *)
Lemma power_bad data N p k x : g_power ieee data N = Some p -> 1 <= k <= N -> rd data k = Some x -> bad x -> bad p.
Proof.
  intros E Hk Ex B. unfold g_power in E. loop (fun i p => k < i -> bad p) E; [apply E; lia|intros H; lia|].
  intros i s s' Hi I E'. apply bind_some in E' as [y [Ey E']]. injection E' as <-. intros Hki. byfin. cbn [add ieee] in F. apply plus_fin in F as [Fs [Fq _]].
  destruct (Nat.eq_dec i k) as [->|Ne].
  - assert (y = x) by congruence. subst y. unfold square in Fq. cbn [mul ieee] in Fq. apply mult_fin in Fq as [Fx _]. exact (bad_fin x _ B Fx).
  - refine (bad_fin s _ (I _) Fs). lia.
Qed.
Lemma power_reads data N p k : g_power ieee data N = Some p -> 1 <= k <= N -> exists x, rd data k = Some x.
Proof.
  intros E Hk. unfold g_power in E. loop (fun i (_ : float64) => k < i -> exists x, rd data k = Some x) E; [apply E; lia|intros H; lia|].
  intros i s s' Hi I E'. apply bind_some in E' as [y [Ey _]]. intros Hki. destruct (Nat.eq_dec i k) as [->|Ne]; [exists y; exact Ey|apply I; lia].
Qed.
(** both sums are spoilt by one bad cell *)
Definition bad_cell (n : nat) (wk1 wk2 : arr float64) : Prop :=
  exists j x, 1 <= j <= n /\ (rd wk1 j = Some x \/ rd wk2 j = Some x) /\ bad x.
Lemma sums_bad N k wk1 wk2 nd : g_sums ieee N k wk1 wk2 = Some nd -> bad_cell (N - k) wk1 wk2 -> bad (fst nd) /\ bad (snd nd).
Proof.
  intros E [j [x [Hj [Ex B]]]]. unfold g_sums in E. loop (fun i nd => j < i -> bad (fst nd) /\ bad (snd nd)) E; [apply E; lia|intros H; lia|].
  intros i s s' Hi I E'. apply bind_some in E' as [a [Ea E']]. apply bind_some in E' as [b [Eb E']]. injection E' as <-. intros Hji. cbn [fst snd].
  destruct (Nat.eq_dec i j) as [->|Ne].
  - assert (AB : a = x \/ b = x) by (destruct Ex; [left|right]; congruence).
    split; byfin; cbn [add ieee] in F; apply plus_fin in F as [_ [F _]].
    + cbn [mul ieee] in F. apply mult_fin in F as [Fa [Fb _]]. destruct AB as [<-|<-]; [exact (bad_fin _ _ B Fa)|exact (bad_fin _ _ B Fb)].
    + apply plus_fin in F as [Fa [Fb _]]. unfold square in *. cbn [mul ieee] in *. apply mult_fin in Fa as [Fa _]. apply mult_fin in Fb as [Fb _]. destruct AB as [<-|<-]; [exact (bad_fin _ _ B Fa)|exact (bad_fin _ _ B Fb)].
  - destruct I as [I1 I2]; [lia|]. split; byfin; cbn [add ieee] in F; apply plus_fin in F as [F _]; (eapply bad_fin; [|eassumption]; assumption).
Qed.
Lemma not_less_bad (d : float64) : bad d -> less ieee (fabs ieee d) (tiny ieee) = false.
Proof. unfold bad. destruct d as [s|s| |s m e H]; try discriminate; intros _; reflexivity. Qed.
Lemma reflection_bad nd : bad (fst nd) -> bad (g_reflection ieee nd).
Proof. intros B. byfin. unfold g_reflection in F. cbn [div mul ieee] in F. apply div_fin in F as [F _]. apply mult_fin in F as [_ [F _]]. exact (bad_fin _ _ B F). Qed.
Lemma discrepancy_bad m r : bad m -> bad (g_discrepancy ieee m r).
Proof. intros B. byfin. unfold g_discrepancy in F. cbn [mul ieee] in F. apply mult_fin in F as [F _]. exact (bad_fin _ _ B F). Qed.
Lemma coefs_keep k wkm coef c r : g_coefs ieee k wkm coef = Some c -> rd coef k = Some r -> rd c k = Some r.
Proof.
  intros E Er. unfold g_coefs in E. loop (fun (_ : nat) c => rd c k = Some r) E; [exact E|exact Er|].
  intros i s s' Hi I E'. apply bind_some in E' as [a [_ E']]. apply bind_some in E' as [ck [_ E']]. apply bind_some in E' as [b [_ E']].
  rewrite (rd_wr_other _ _ _ k _ E') by lia. exact I.
Qed.
Lemma save_last k wkm coef w r : 1 <= k -> g_save k wkm coef = Some w -> rd coef k = Some r -> rd w k = Some (r : float64).
Proof.
  intros Hk E Er. unfold g_save in E. loop (fun i w => k < i -> rd w k = Some r) E; [apply E; lia|intros H; lia|].
  intros i s s' Hi I E'. apply bind_some in E' as [c [Ec E']]. intros Hki. assert (i = k) by lia. subst i. rewrite (rd_wr_same _ _ _ _ E'). congruence.
Qed.
Lemma update_bad N k wkm wk1 wk2 w r : rd wkm k = Some r -> bad r -> k + 2 <= N -> g_update ieee N k wkm wk1 wk2 = Some w -> bad_cell (N - S k) (fst w) (snd w).
Proof.
  intros Er B HN E. unfold g_update in E. loop (fun i (w : arr float64 * arr float64) => 1 < i -> exists x, rd (fst w) 1 = Some x /\ bad x) E.
  - destruct E as [x [Ex Bx]]; [lia|]. exists 1, x. split; [lia|]. split; [left; exact Ex|exact Bx].
  - intros H. lia.
  - intros i s s' Hi I E'. apply bind_some in E' as [a [Ea E']]. apply bind_some in E' as [r1 [Er1 E']]. apply bind_some in E' as [b [Eb E']]. apply bind_some in E' as [w1 [Ew1 E']].
    apply bind_some in E' as [b' [_ E']]. apply bind_some in E' as [r2 [_ E']]. apply bind_some in E' as [a' [_ E']]. apply bind_some in E' as [w2 [_ E']]. injection E' as <-. cbn [fst]. intros _.
    destruct (Nat.eq_dec i 1) as [->|Ne].
    + eexists. split; [apply (rd_wr_same _ _ _ _ Ew1)|]. byfin. cbn [sub mul ieee] in F. apply minus_fin in F as [_ [F _]]. apply mult_fin in F as [F _]. assert (r1 = r) by congruence. subst r1. exact (bad_fin _ _ B F).
    + destruct I as [x [Ex Bx]]; [lia|]. exists x. split; [|exact Bx]. rewrite (rd_wr_other _ _ _ 1 _ Ew1) by lia. exact Ex.
Qed.
Lemma fill_bad data N w k x : 2 <= N -> g_fill data N = Some w -> 1 <= k <= N -> rd data k = Some x -> bad x -> bad_cell (N - 1) (fst w) (snd w).
Proof.
  intros HN E Hk Ex B. unfold g_fill in E. apply bind_some in E as [d1 [E1 E]]. apply bind_some in E as [w1 [Ew1 E]]. apply bind_some in E as [dN [EN E]]. apply bind_some in E as [w2 [Ew2 E]].
  loop (fun i (w : arr float64 * arr float64) => (k = 1 -> rd (fst w) 1 = Some x) /\ (k = N -> rd (snd w) (N - 1) = Some x) /\ (2 <= k < N -> k < i -> rd (fst w) k = Some x)) E.
  - destruct E as [A1 [A2 A3]]. destruct (Nat.eq_dec k 1) as [H1|H1]; [|destruct (Nat.eq_dec k N) as [H2|H2]].
    + exists 1, x. split; [lia|]. split; [left; apply A1, H1|exact B].
    + exists (N - 1), x. split; [lia|]. split; [right; apply A2, H2|exact B].
    + exists k, x. split; [lia|]. split; [left; apply A3; lia|exact B].
  - cbn [fst snd]. split; [|split].
    + intros ->. rewrite (rd_wr_same _ _ _ _ Ew1). congruence.
    + intros ->. rewrite (rd_wr_same _ _ _ _ Ew2). congruence.
    + intros ? ?. lia.
  - intros i s s' Hi [I1 [I2 I3]] E'. apply bind_some in E' as [d [Ed E']]. apply bind_some in E' as [a [Ea E']]. apply bind_some in E' as [d' [Ed' E']]. apply bind_some in E' as [b [Eb E']]. injection E' as <-. cbn [fst snd].
    split; [|split].
    + intros H. rewrite (rd_wr_other _ _ _ 1 _ Ea) by lia. apply I1, H.
    + intros H. rewrite (rd_wr_other _ _ _ (N - 1) _ Eb) by lia. apply I2, H.
    + intros H H'. destruct (Nat.eq_dec i k) as [->|Ne]; [rewrite (rd_wr_same _ _ _ _ Ea); congruence|]. rewrite (rd_wr_other _ _ _ k _ Ea) by lia. apply I3; lia.
Qed.
Lemma coefficients_bad data N M v c k x : 2 <= N -> M < N -> g_coefficients ieee data N M = Some (v, c) -> 1 <= k <= N -> rd data k = Some x -> bad x -> bad v.
Proof.
  intros HN HM E Hk Ex B. unfold g_coefficients in E. apply bind_some in E as [p [Ep E]]. apply bind_some in E as [w [Ew E]]. apply bind_some in E as [r [Er E]].
  loop (fun i (r : grun float64) => match r with GRet _ _ => False | GGo s => bad (g_msd s) /\ (i <= M -> bad_cell (N - i) (g_wk1 s) (g_wk2 s)) end) Er.
  - destruct r as [s|y c']; [|destruct Er]. injection E as <- <-. apply Er.
  - cbn [g_msd g_wk1 g_wk2]. split.
    + byfin. cbn [div ieee] in F. apply div_fin in F as [F _]. exact (bad_fin _ _ (power_bad _ _ _ _ _ Ep Hk Ex B) F).
    + intros _. apply (fill_bad data N w k x); assumption.
  - intros i s s' Hi I E'. destruct s as [s|y c']; [|destruct I]. destruct I as [Bm Bc]. cbn [g_iter] in E'. apply bind_some in E' as [nd [En E']].
    destruct (sums_bad _ _ _ _ _ En (Bc ltac:(lia))) as [B1 B2]. rewrite (not_less_bad _ B2) in E'. cbv zeta in E'. apply bind_some in E' as [cf [Ecf E']]. apply bind_some in E' as [cf2 [Ecf2 E']].
    assert (Bm' := discrepancy_bad _ (g_reflection ieee nd) Bm). destruct (Nat.eqb_spec i M) as [HiM|HiM].
    + injection E' as <-. cbn [g_msd]. split; [exact Bm'|]. intros H. lia.
    + apply bind_some in E' as [wkm [Ewkm E']]. apply bind_some in E' as [w' [Ew' E']]. injection E' as <-. cbn [g_msd g_wk1 g_wk2]. split; [exact Bm'|]. intros H.
      refine (update_bad N i wkm (g_wk1 s) (g_wk2 s) w' (g_reflection ieee nd) _ (reflection_bad _ B1) _ Ew'); [|lia].
      apply (save_last i (g_wkm s) cf2); [lia|exact Ewkm|]. apply (coefs_keep i (g_wkm s) cf); [exact Ecf2|]. apply (rd_wr_same _ _ _ _ Ecf).
Qed.
Lemma nonzero_bad (x : float64) : bad x -> differs_from_zero ieee x = true.
Proof. unfold bad. destruct x as [s|s| |s m e H]; try discriminate; intros _; [destruct s|]; reflexivity. Qed.
Lemma evaluation_bad z coef M (m v : float64) : g_evaluation ieee z coef M m = Some v -> bad m -> bad v.
Proof. intros E B. unfold g_evaluation in E. apply bind_some in E as [s [_ E]]. injection E as <-. byfin. cbn [div ieee] in F. apply div_fin in F as [F _]. exact (bad_fin _ _ B F). Qed.
Lemma frequency_bad z dr di N M dt v k x : 2 <= N -> M < N -> g_frequency ieee z dr di N M dt = Some v -> 1 <= k <= N -> rd dr k = Some x \/ rd di k = Some x -> bad x -> bad v.
Proof.
  intros HN HM E Hk Ex B. unfold g_frequency in E. apply bind_some in E as [[vr cr] [Er E]]. apply bind_some in E as [[vi ci] [Ei E]]. cbn [fst snd] in E.
  apply bind_some in E as [s1 [E1 E]]. apply bind_some in E as [s2 [E2 E]]. injection E as <-. byfin. cbn [mul ieee] in F. apply mult_fin in F as [F _]. destruct Ex as [Ex|Ex].
  - assert (Bv := coefficients_bad dr N M vr cr k x HN HM Er Hk Ex B). rewrite (nonzero_bad _ Bv) in E1. apply bind_some in E1 as [e [Ee E1]]. injection E1 as <-. apply evaluation_bad in Ee; [|exact Bv].
    assert (Bs : bad (add ieee (zero ieee) e)) by (byfin; cbn [add ieee] in F0; apply plus_fin in F0 as [_ [F0 _]]; exact (bad_fin _ _ Ee F0)).
    destruct (differs_from_zero ieee vi); [|injection E2 as <-; exact (bad_fin _ _ Bs F)]. apply bind_some in E2 as [e' [_ E2]]. injection E2 as <-. cbn [add ieee] in F. apply plus_fin in F as [F _]. exact (bad_fin _ _ Bs F).
  - assert (Bv := coefficients_bad di N M vi ci k x HN HM Ei Hk Ex B). rewrite (nonzero_bad _ Bv) in E2. apply bind_some in E2 as [e [Ee E2]]. injection E2 as <-. apply evaluation_bad in Ee; [|exact Bv].
    cbn [add ieee] in F. apply plus_fin in F as [_ [F _]]. exact (bad_fin _ _ Ee F).
Qed.
(** as many coefficients as samples: always 0 *)
Lemma coefficients_too_many data N M v c : 1 <= N -> N <= M -> g_coefficients ieee data N M = Some (v, c) -> v = zero ieee.
Proof.
  intros HN HM E. unfold g_coefficients in E. apply bind_some in E as [p [_ E]]. apply bind_some in E as [w [_ E]]. apply bind_some in E as [r [Er E]].
  loop (fun i (r : grun float64) => match r with GRet x _ => x = zero ieee | GGo _ => i <= N end) Er.
  - destruct r as [s|y c']; [|injection E as <- <-; exact Er]. lia.
  - lia.
  - intros i s s' Hi I E'. destruct s as [s|y c']; [|injection E' as <-; exact I]. cbn [g_iter] in E'. apply bind_some in E' as [nd [En E']].
    destruct (Nat.eq_dec i N) as [->|Ne].
    + unfold g_sums in En. rewrite Nat.sub_diag in En. cbn [for_] in En. injection En as <-. cbn [snd] in E'. change (less ieee (fabs ieee (zero ieee)) (tiny ieee)) with true in E'. injection E' as <-. reflexivity.
    + destruct (less ieee _ _); [injection E' as <-; reflexivity|]. cbv zeta in E'. apply bind_some in E' as [cf [_ E']]. apply bind_some in E' as [cf2 [_ E']]. destruct (i =? M); [injection E' as <-; lia|].
      apply bind_some in E' as [wkm [_ E']]. apply bind_some in E' as [w' [_ E']]. injection E' as <-. lia.
Qed.

(** ---------- correlation.c ---------- *)
Lemma g_term_some {T} tm cj (v : list (T * T)) j k e r : g_term tm cj v j k e = Some r -> exists a b, g_vread v j = Some a /\ g_vread v k = Some b /\ r = tm (tm (cj a) b) e.
Proof. intros E. unfold g_term in E. apply bind_some in E as [a [Ea E]]. apply bind_some in E as [b [Eb E]]. injection E as <-. exists a, b. repeat split; assumption. Qed.
Definition ok_pair (x : float64 * float64) : Prop := fin (fst x) = true /\ fin (snd x) = true.
Lemma times_ok rescue x y : fin (fst (complex_times rescue x y)) = true -> ok_pair x /\ ok_pair y.
Proof.
  unfold complex_times. destruct (is_nan64 _ && is_nan64 _)%bool eqn:N.
  - apply andb_prop in N as [N _]. destruct (rescue x y) as [r|].
    + intros F. cbn [fst mul ieee] in F. apply mult_fin in F as [F _]. discriminate F.
    + intros F. exfalso. unfold is_nan64 in N. destruct (fst (g_times ieee x y)); discriminate.
  - intros F. unfold g_times in F. cbn [fst sub mul ieee] in F. apply minus_fin in F as [F1 [F2 _]]. apply mult_fin in F1 as [A [B _]]. apply mult_fin in F2 as [C [D _]]. repeat split; assumption.
Qed.
Lemma term_ok rescue v j k e r : g_term (complex_times rescue) complex_conj v j k e = Some r -> fin (fst r) = true -> exists a b, g_vread v j = Some a /\ g_vread v k = Some b /\ ok_pair a /\ ok_pair b.
Proof.
  intros E F. apply g_term_some in E as [a [b [Ea [Eb ->]]]]. exists a, b. split; [exact Ea|]. split; [exact Eb|]. apply times_ok in F as [[F _] _]. apply times_ok in F as [[F1 F2] F3]. split; [|exact F3].
  unfold complex_conj in *. cbn [fst snd] in *. split; [exact F1|]. rewrite is_finite_Bopp in F2. exact F2.
Qed.
Section Corr.
Context (rescue : float64 * float64 -> float64 * float64 -> option (float64 * float64)) (phase phase' : Z -> float64 * float64).
Notation inner := (g_inner ieee (complex_times rescue) complex_conj phase phase').
Notation outer := (g_outer ieee (complex_times rescue) complex_conj phase phase').
Lemma inner_acc v inc method i j acc acc' : inner v inc method i j acc = Some acc' -> fin (fst acc') = true -> fin (fst acc) = true.
Proof.
  intros E F. unfold g_inner in E. apply bind_some in E as [c1 [_ E]]. cbv zeta in E. destruct method.
  - apply bind_some in E as [c2 [_ E]]. injection E as <-. unfold g_plus in F. cbn [fst add ieee] in F. apply plus_fin in F as [F _]. apply plus_fin in F as [F _]. exact F.
  - apply bind_some in E as [c2 [_ E]]. apply bind_some in E as [c3 [_ E]]. injection E as <-. unfold g_plus in F. cbn [fst add ieee] in F. apply plus_fin in F as [F _]. apply plus_fin in F as [F _]. apply plus_fin in F as [F _]. exact F.
Qed.
Definition good (v : list (float64 * float64)) (k : Z) : Prop := exists a, g_vread v k = Some a /\ ok_pair a.
Lemma inner_ok v inc method i j acc acc' : inner v inc method i j acc = Some acc' -> fin (fst acc') = true ->
  good v j /\ good v (j + i) /\ (method = false -> good v (j + i + inc)).
Proof.
  intros E F. unfold g_inner in E. apply bind_some in E as [c1 [E1 E]]. cbv zeta in E. destruct method.
  - apply bind_some in E as [c2 [_ E]]. injection E as <-. unfold g_plus in F. cbn [fst add ieee] in F. apply plus_fin in F as [F _]. apply plus_fin in F as [_ [F _]].
    destruct (term_ok _ _ _ _ _ _ E1 F) as [a [b [Ea [Eb [Oa Ob]]]]]. split; [exists a; split; assumption|]. split; [exists b; split; assumption|discriminate].
  - apply bind_some in E as [c2 [E2 E]]. apply bind_some in E as [c3 [_ E]]. injection E as <-. unfold g_plus in F. cbn [fst add ieee] in F. apply plus_fin in F as [F _]. apply plus_fin in F as [F [F2 _]]. apply plus_fin in F as [_ [F1 _]].
    destruct (term_ok _ _ _ _ _ _ E1 F1) as [a [b [Ea [Eb [Oa Ob]]]]]. destruct (term_ok _ _ _ _ _ _ E2 F2) as [a2 [b2 [_ [Eb2 [_ Ob2]]]]].
    split; [exists a; split; assumption|]. split; [exists b; split; assumption|]. intros _. exists b2. split; assumption.
Qed.
Lemma for_inner v inc method i n acc acc' : for_ 0 n (fun j => inner v inc method i (Z.of_nat j)) acc = Some acc' -> fin (fst acc') = true ->
  fin (fst acc) = true /\ forall j, j < n -> good v (Z.of_nat j) /\ good v (Z.of_nat j + i) /\ (method = false -> good v (Z.of_nat j + i + inc)).
Proof.
  intros E. loop (fun m (a : float64 * float64) => fin (fst a) = true -> fin (fst acc) = true /\ forall j, j < m -> good v (Z.of_nat j) /\ good v (Z.of_nat j + i) /\ (method = false -> good v (Z.of_nat j + i + inc))) E; [exact E| |].
  - intros F. split; [exact F|]. intros j Hj. lia.
  - intros m a a' Hm I E' F. destruct (I (inner_acc _ _ _ _ _ _ _ E' F)) as [I1 I2]. split; [exact I1|]. intros j Hj. destruct (Nat.eq_dec j m) as [->|Ne]; [exact (inner_ok _ _ _ _ _ _ _ E' F)|apply I2; lia].
Qed.
Lemma outer_acc v inc method : forall fuel i acc c, outer fuel v inc method i acc = GFinished c -> fin (fst c) = true -> fin (fst acc) = true.
Proof.
  induction fuel as [|f IH]; intros i acc c E F; cbn [g_outer] in E; [discriminate|]. destruct (i <? Z.of_nat (length v))%Z; [|injection E as <-; exact F].
  destruct (for_ 0 _ _ acc) as [a|] eqn:Ef; [|discriminate]. apply (for_inner _ _ _ _ _ _ _ Ef). exact (IH _ _ _ E F).
Qed.
Lemma correlation_good fuel v dt inc method x : g_correlation ieee (complex_times rescue) complex_conj phase phase' fuel v dt inc method = Some x -> fin x = true ->
  forall j : nat, (Z.of_nat j < Z.of_nat (length v) - inc)%Z -> j < length v -> good v (Z.of_nat j) /\ (method = false -> good v (Z.of_nat j + inc)).
Proof.
  intros E F j Hj Hl. unfold g_correlation in E. destruct (outer fuel v inc method 0 (zero ieee, zero ieee)) as [c| |] eqn:Eo; try discriminate. injection E as <-. cbn [div mul ieee] in F.
  apply div_fin in F as [F _]. apply mult_fin in F as [F _]. destruct fuel as [|f]; cbn [g_outer] in Eo; [discriminate|]. destruct (Z.ltb_spec 0 (Z.of_nat (length v))); [|lia].
  destruct (for_ 0 _ _ (zero ieee, zero ieee)) as [a|] eqn:Ef; [|discriminate]. apply outer_acc in Eo; [|exact F]. destruct (for_inner _ _ _ _ _ _ _ Ef Eo) as [_ G].
  destruct (G j) as [G1 [_ G3]]; [lia|]. split; [exact G1|]. intros H'. rewrite Z.add_0_r in G3. exact (G3 H').
Qed.
End Corr.

(** samples at or after N - inc are not read by the rectangular rule *)
Section Tail.
Context {T : Type} (A : arith T) (times : T * T -> T * T -> T * T) (conj : T * T -> T * T) (phase phase' : Z -> T * T).
Lemma for_ext_in {S} (b1 b2 : nat -> S -> option S) : forall n a s, (forall i s, a <= i < a + n -> b1 i s = b2 i s) -> for_ a n b1 s = for_ a n b2 s.
Proof. induction n as [|n IH]; intros a s H; cbn [for_]; [reflexivity|]. rewrite H by lia. destruct (b2 a s); cbn [bind]; [apply IH; intros; apply H; lia|reflexivity]. Qed.
Lemma outer_tail v v' inc : length v = length v' -> (forall k, (0 <= k < Z.of_nat (length v) - inc)%Z -> g_vread v k = g_vread v' k) -> (0 <= inc)%Z ->
  forall fuel i acc, (0 <= i)%Z -> g_outer A times conj phase phase' fuel v inc true i acc = g_outer A times conj phase phase' fuel v' inc true i acc.
Proof.
  intros L H Hinc. induction fuel as [|f IH]; intros i acc Hi; cbn [g_outer]; [reflexivity|]. rewrite <- L. destruct (i <? Z.of_nat (length v))%Z; [|reflexivity].
  rewrite (for_ext_in (fun j => g_inner A times conj phase phase' v inc true i (Z.of_nat j)) (fun j => g_inner A times conj phase phase' v' inc true i (Z.of_nat j))).
  - destruct (for_ 0 _ _ acc) as [a|]; [|reflexivity]. apply IH. lia.
  - intros j s Hj. cbv beta. unfold g_inner, g_term. rewrite (H (Z.of_nat j)), (H (Z.of_nat j + i)%Z) by lia. reflexivity.
Qed.
Lemma correlation_tail fuel v v' dt inc : length v = length v' -> (forall k, (0 <= k < Z.of_nat (length v) - inc)%Z -> g_vread v k = g_vread v' k) -> (0 <= inc)%Z ->
  g_correlation A times conj phase phase' fuel v dt inc true = g_correlation A times conj phase phase' fuel v' dt inc true.
Proof. intros L H Hinc. unfold g_correlation. rewrite (outer_tail v v' inc L H Hinc fuel 0 _ (Z.le_refl 0)), L. reflexivity. Qed.
End Tail.

(** ---------- exact arithmetic: the model CorrelationModel ---------- *)
Definition exact_phase (freq dt : R) (m : Z) : R * R := CorrelationModel.cexp (Cbuild (freq * (IZR m * dt)) 1).
Definition exact_phase' (freq : R) (m : Z) : R * R := CorrelationModel.cexp (Cbuild (freq * IZR m) 1).
Lemma for_inner_exact v freq dt inc method i n acc :
  for_ 0 n (fun j => g_inner exact Cmult Cconj (exact_phase freq dt) (exact_phase' freq) v inc method i (Z.of_nat j)) acc =
  for_ 0 n (fun j => corr_inner v freq dt inc method i (Z.of_nat j)) acc.
Proof. reflexivity. Qed.
Lemma outer_exact freq v dt inc method : forall fuel i acc,
  g_outer exact Cmult Cconj (exact_phase freq dt) (exact_phase' freq) fuel v inc method i acc =
  match corr_outer fuel v freq dt inc method i acc with Finished c => GFinished c | Undefined => GUndefined | Running => GRunning end.
Proof.
  induction fuel as [|f IH]; intros i acc; cbn [g_outer corr_outer]; [reflexivity|]. change (@length Complex.C v) with (@length (R * R) v). destruct (i <? Z.of_nat (length v))%Z; [|reflexivity].
  match goal with |- (match ?X with Some _ => _ | None => _ end) = match (match ?Y with Some _ => _ | None => _ end) with Finished _ => _ | Undefined => _ | Running => _ end =>
    assert (XY : X = Y) by reflexivity; destruct X as [a|], Y as [b|]; try discriminate XY; [|reflexivity] end.
  assert (AB : a = b) by (injection XY; exact (fun e => e)). rewrite AB. apply IH.
Qed.

Lemma correlation_exact fuel freq v dt inc method x : (0 < inc)%Z ->
  EvaluateCorrelation fuel freq v dt inc method = Number x -> g_correlation exact Cmult Cconj (exact_phase freq dt) (exact_phase' freq) fuel v dt inc method = Some x.
Proof.
  intros Hinc. unfold EvaluateCorrelation, g_correlation. change (@length Complex.C v) with (@length (R * R) v). change (zero exact, zero exact) with (RtoC 0). rewrite outer_exact. destruct (corr_outer fuel v freq dt inc method 0 (RtoC 0)) as [c| |]; try discriminate.
  cbv zeta. match goal with |- (if ?b then _ else _) = _ -> _ => destruct b end; intros E; [discriminate E|]. injection E as <-. f_equal. cbn [div mul of_int exact]. unfold Re. f_equal. rewrite INR_IZR_INZ, Z2Nat.id; [reflexivity|].
  apply Z.quot_pos; lia.
Qed.
