From Verif Require Import FittingModel FittingSpec.
From Coq Require Import Lra Lia.
Open Scope R_scope.

Lemma Rltb_true x y : Rltb x y = true <-> x < y.
Proof. unfold Rltb. destruct (Rlt_dec x y); split; congruence || tauto. Qed.
Lemma near_true f c s j : near f c s j = true <-> exists a, In a s /\ Rabs (f a - f j) < c.
Proof. unfold near. rewrite existsb_exists. split; intros [a [H1 H2]]; exists a; (split; [exact H1|]); apply Rltb_true; exact H2. Qed.
Lemma mem_true i l : existsb (Nat.eqb i) l = true <-> In i l.
Proof. rewrite existsb_exists. split; [intros [x [H1 H2]]; apply Nat.eqb_eq in H2; subst; exact H1|intros H; exists i; split; [exact H|apply Nat.eqb_refl]]. Qed.

Section D.
Context (f : nat -> R) (c : R).
Lemma linked_one i : linked f c [i].
Proof. split; [discriminate|]. cbn. intros k Hk. lia. Qed.
Lemma linked_snoc s j : linked f c s -> near f c s j = true -> linked f c (s ++ [j]).
Proof.
  intros [Hn Hl] Hj. split; [destruct s; discriminate|]. intros k Hk. rewrite app_length in Hk. cbn in Hk.
  destruct (Nat.eq_dec k (length s)) as [->|Ne].
  - apply near_true in Hj as [a [Ha Hd]]. apply (In_nth _ _ 0%nat) in Ha as [l [Hl1 Hl2]]. exists l. split; [exact Hl1|].
    rewrite app_nth1 by exact Hl1. rewrite app_nth2 by lia. rewrite Nat.sub_diag. cbn [nth]. rewrite Hl2. exact Hd.
  - destruct (Hl k ltac:(lia)) as [l [H1 H2]]. exists l. split; [exact H1|]. rewrite !app_nth1 by lia. exact H2.
Qed.
Lemma join_fold js : forall s d, linked f c s -> exists t, fold_left (join_step f c) js (s, d) = (s ++ t, d ++ t) /\ linked f c (s ++ t) /\ incl t js.
Proof.
  induction js as [|j js IH]; intros s d Hs.
  - exists []. rewrite !app_nil_r. split; [reflexivity|]. split; [exact Hs|intros x []].
  - cbn [fold_left join_step]. destruct (near f c s j) eqn:E.
    + destruct (IH (s ++ [j]) (d ++ [j]) (linked_snoc s j Hs E)) as [t [E1 [E2 E3]]]. exists (j :: t). rewrite <- !app_assoc in *. cbn [app] in *.
      split; [exact E1|]. split; [exact E2|]. intros x [<-|Hx]; [left; reflexivity|right; apply E3, Hx].
    + destruct (IH s d Hs) as [t [E1 [E2 E3]]]. exists t. split; [exact E1|]. split; [exact E2|]. intros x Hx. right. apply E3, Hx.
Qed.
Record GInv (n k : nat) (st : list (list nat) * list nat) : Prop := {
  g_done : snd st = concat (fst st); g_linked : Forall (linked f c) (fst st);
  g_cov : forall i, (i < k)%nat -> In i (snd st); g_in : forall i, In i (snd st) -> (i < n)%nat }.
Lemma set_step_G n k st : (k < n)%nat -> GInv n k st -> GInv n (S k) (set_step f c n st k).
Proof.
  intros Hk [H1 H2 H3 H4]. destruct st as [ind done]. cbn [fst snd] in *. unfold set_step.
  destruct (existsb (Nat.eqb k) done) eqn:E.
  - apply mem_true in E. constructor; cbn [fst snd]; try assumption. intros i Hi. destruct (Nat.eq_dec i k) as [->|]; [exact E|apply H3; lia].
  - destruct (join_fold (seq (k + 1) (n - (k + 1))) [k] (done ++ [k]) (linked_one k)) as [t [E1 [E2 E3]]]. rewrite E1. constructor; cbn [fst snd].
    + rewrite concat_app. cbn [concat]. rewrite app_nil_r, H1, <- app_assoc. reflexivity.
    + apply Forall_app. split; [exact H2|]. constructor; [exact E2|constructor].
    + intros i Hi. rewrite <- app_assoc. apply in_or_app. destruct (Nat.eq_dec i k) as [->|]; [right; left; reflexivity|left; apply H3; lia].
    + intros i Hi. rewrite <- app_assoc in Hi. apply in_app_or in Hi as [Hi|[<-|Hi]]; [apply H4, Hi|exact Hk|]. apply E3 in Hi. apply in_seq in Hi. lia.
Qed.
Lemma loop_G n : forall k, (k <= n)%nat -> GInv n k (fold_left (set_step f c n) (seq 0 k) ([], [])).
Proof.
  induction k as [|k IH]; intros Hk.
  - cbn [seq fold_left]. constructor; [reflexivity|constructor|intros i Hi; lia|intros i []].
  - rewrite seq_S, fold_left_app. cbn [fold_left plus]. apply set_step_G; [lia|apply IH; lia].
Qed.
Lemma sets_general n : Forall (linked f c) (degenerate_sets f c n) /\ (forall i, (i < n)%nat <-> In i (concat (degenerate_sets f c n))).
Proof.
  destruct (loop_G n n (le_n n)) as [H1 H2 H3 H4]. unfold degenerate_sets. split; [exact H2|]. rewrite <- H1. intros i. split; [apply H3|apply H4].
Qed.

(** ascending frequencies *)
Context (n : nat) (Hs : ascending f n).
Lemma abs_asc i j : (i <= j < n)%nat -> Rabs (f i - f j) = f j - f i.
Proof. intros H. rewrite Rabs_left1; [ring|]. assert (H1 := Hs i j H). lra. Qed.
(** after a gap nothing is added *)
Lemma after_gap i k : (0 < k)%nat -> (i + k < n)%nat -> c <= f (i + k)%nat - f (i + k - 1)%nat ->
  forall js d, (forall j, In j js -> (i + k <= j < n)%nat) -> fold_left (join_step f c) js (seq i k, d) = (seq i k, d).
Proof.
  intros Hk Hn Hg. induction js as [|j js IH]; intros d Hj; [reflexivity|]. cbn [fold_left join_step].
  destruct (near f c (seq i k) j) eqn:E.
  - exfalso. apply near_true in E as [a [Ha Hd]]. apply in_seq in Ha. assert (Hj' := Hj j (or_introl eq_refl)). rewrite abs_asc in Hd by lia.
    assert (A := Hs a (i + k - 1)%nat ltac:(lia)). assert (B := Hs (i + k)%nat j ltac:(lia)). lra.
  - apply IH. intros x Hx. apply Hj. right. exact Hx.
Qed.
Lemma run_sorted i : forall cnt k d, (0 < k)%nat -> (i + k + cnt = n)%nat ->
  exists m, (k <= m)%nat /\ (i + m <= n)%nat /\ fold_left (join_step f c) (seq (i + k) cnt) (seq i k, d) = (seq i m, d ++ seq (i + k) (m - k)) /\
  ((i + m < n)%nat -> c <= f (i + m)%nat - f (i + m - 1)%nat).
Proof.
  induction cnt as [|cnt IH]; intros k d Hk Hn.
  - exists k. split; [lia|]. split; [lia|]. rewrite Nat.sub_diag. cbn [seq fold_left]. rewrite app_nil_r. split; [reflexivity|]. intros H. lia.
  - cbn [seq fold_left join_step]. destruct (near f c (seq i k) (i + k)) eqn:E.
    + replace (seq i k ++ [(i + k)%nat]) with (seq i (S k)) by (rewrite seq_S; reflexivity).
      destruct (IH (S k) (d ++ [(i + k)%nat]) ltac:(lia) ltac:(lia)) as [m [H1 [H2 [H3 H4]]]]. exists m. split; [lia|]. split; [exact H2|]. split; [|exact H4].
      replace (S (i + k)) with (i + S k)%nat by lia. rewrite H3. f_equal. rewrite <- app_assoc. cbn [app]. f_equal.
      replace (m - k)%nat with (S (m - S k)) by lia. cbn [seq]. replace (S (i + k)) with (i + S k)%nat by lia. reflexivity.
    + assert (G : c <= f (i + k)%nat - f (i + k - 1)%nat).
      { destruct (Rle_lt_dec c (f (i + k)%nat - f (i + k - 1)%nat)) as [|L]; [assumption|]. exfalso. assert (T : near f c (seq i k) (i + k) = true); [|congruence].
        apply near_true. exists (i + k - 1)%nat. split; [apply in_seq; lia|]. rewrite abs_asc by lia. exact L. }
      exists k. split; [lia|]. split; [lia|]. rewrite Nat.sub_diag. cbn [seq]. rewrite app_nil_r. split; [|intros _; exact G].
      apply after_gap; try assumption; [lia|]. intros j Hj. apply in_seq in Hj. lia.
Qed.
Record SInv (k : nat) (st : list (list nat) * list nat) (m : nat) : Prop := {
  s_km : (k <= m <= n)%nat; s_done : snd st = seq 0 m; s_cat : concat (fst st) = seq 0 m; s_sep : separated f c (fst st);
  s_gap : forall i j, (i < m)%nat -> (m <= j < n)%nat -> c <= f j - f i }.
Lemma separated_snoc l s : separated f c l -> (forall i j, In i (concat l) -> In j s -> c <= Rabs (f i - f j)) -> separated f c (l ++ [s]).
Proof.
  intros Hl Hx a b Hab i j Hi Hj. rewrite app_length in Hab. cbn [length] in Hab. destruct (Nat.eq_dec b (length l)) as [->|Ne].
  - rewrite app_nth1 in Hi by lia. rewrite app_nth2, Nat.sub_diag in Hj by lia. cbn [nth] in Hj. apply Hx; [|exact Hj].
    apply in_concat. exists (nth a l []). split; [apply nth_In; lia|exact Hi].
  - rewrite app_nth1 in Hi by lia. rewrite app_nth1 in Hj by lia. apply (Hl a b); [lia|exact Hi|exact Hj].
Qed.
Lemma set_step_S k st m : (k < n)%nat -> SInv k st m -> exists m', SInv (S k) (set_step f c n st k) m'.
Proof.
  intros Hk [H1 H2 H3 H4 H5]. destruct st as [ind done]. cbn [fst snd] in *. unfold set_step. destruct (existsb (Nat.eqb k) done) eqn:E.
  - apply mem_true in E. rewrite H2 in E. apply in_seq in E. exists m. constructor; cbn [fst snd]; try assumption. lia.
  - assert (Em : m = k).
    { destruct (Nat.eq_dec m k); [assumption|]. exfalso. assert (T : existsb (Nat.eqb k) done = true); [|congruence]. apply mem_true. rewrite H2. apply in_seq. lia. }
    subst m. destruct (run_sorted k (n - (k + 1)) 1 (done ++ [k]) ltac:(lia) ltac:(lia)) as [m [G1 [G2 [G3 G4]]]].
    change (seq k 1) with [k] in G3. rewrite G3. exists (k + m)%nat.
    assert (Es : seq 0 k ++ seq k m = seq 0 (k + m)) by (rewrite seq_app; reflexivity).
    assert (Gap : forall i j, (i < k + m)%nat -> (k + m <= j < n)%nat -> c <= f j - f i).
    { intros i j Hi Hj. destruct (Nat.lt_ge_cases i k) as [L|L].
      - apply H5; lia.
      - assert (A := G4 ltac:(lia)). assert (B := Hs i (k + m - 1)%nat ltac:(lia)). assert (D := Hs (k + m)%nat j ltac:(lia)). lra. }
    constructor; cbn [fst snd].
    + lia.
    + rewrite H2, <- Es. rewrite <- app_assoc. cbn [app]. f_equal. destruct m as [|m]; [lia|]. cbn [seq]. rewrite Nat.sub_succ, Nat.sub_0_r. f_equal. f_equal. lia.
    + rewrite concat_app, H3. cbn [concat]. rewrite app_nil_r. exact Es.
    + apply separated_snoc; [exact H4|]. intros i j Hi Hj. rewrite H3 in Hi. apply in_seq in Hi. apply in_seq in Hj. rewrite abs_asc by lia. apply H5; lia.
    + exact Gap.
Qed.
Lemma loop_S : forall k, (k <= n)%nat -> exists m, SInv k (fold_left (set_step f c n) (seq 0 k) ([], [])) m.
Proof.
  induction k as [|k IH]; intros Hk.
  - exists 0%nat. constructor; cbn; try reflexivity; [lia| |intros; lia]. intros a b Hab. cbn in Hab. lia.
  - rewrite seq_S, fold_left_app. cbn [fold_left plus]. destruct (IH ltac:(lia)) as [m Hm]. apply (set_step_S k _ m); [lia|exact Hm].
Qed.
Lemma sets_sorted : concat (degenerate_sets f c n) = seq 0 n /\ separated f c (degenerate_sets f c n).
Proof.
  destruct (loop_S n (le_n n)) as [m [H1 H2 H3 H4 H5]]. assert (m = n) by lia. subst m. unfold degenerate_sets. split; assumption.
Qed.
End D.

(** averages *)
Lemma average_first i data deg w : (exists s, In s deg /\ In i s) -> exists s, In s deg /\ In i s /\ average_phonon i data deg w = Some (rsum (map (data w) s) / INR (length s)).
Proof.
  intros [s0 [H1 H2]]. induction deg as [|s deg IH]; [destruct H1|]. cbn [average_phonon]. destruct (existsb (Nat.eqb i) s) eqn:E.
  - exists s. split; [left; reflexivity|]. split; [apply mem_true; exact E|reflexivity].
  - destruct H1 as [->|H1]; [apply mem_true in H2; congruence|]. destruct (IH H1) as [s' [A [B D]]]. exists s'. split; [right; exact A|]. split; assumption.
Qed.
Lemma column_defined orig harm useg ncol c i : (i < ncol)%nat -> column orig harm useg ncol c i <> None.
Proof.
  intros Hi. unfold column. destruct useg; [|discriminate]. cbv zeta.
  destruct (average_first i orig (degenerate_sets harm c ncol) 0%nat) as [s [_ [_ E]]]; [|rewrite E; discriminate].
  destruct (sets_general harm c ncol) as [_ G]. apply G in Hi. apply in_concat in Hi. destruct Hi as [s [A B]]. exists s. split; assumption.
Qed.

Section A.
Context (gf : (nat -> R) -> option fitted) (orig : nat -> nat -> R) (harm : nat -> R) (useg : bool) (ncol : nat) (c : R) (shift : option (list R)).
Context (Hlen : match shift with None => True | Some s => (ncol <= length s)%nat end).
Notation dx := (shift_of shift).
Definition col (i : nat) : nat -> R := match column orig harm useg ncol c i with Some p => p | None => fun _ => 0 end.
Definition ent (i : nat) := entry gf (col i) (dx i).
Lemma analysis_upto k : (k <= ncol)%nat ->
  fold_left (analyse gf orig harm useg ncol c shift) (seq 0 k) (Some (MkRes [] [] [] [])) =
  Some (MkRes (map (fun i => fst (fst (fst (ent i)))) (seq 0 k)) (map (fun i => snd (fst (fst (ent i)))) (seq 0 k)) (map (fun i => snd (fst (ent i))) (seq 0 k)) (map (fun i => snd (ent i)) (seq 0 k))).
Proof.
  induction k as [|k IH]; intros Hk; [reflexivity|]. rewrite seq_S, fold_left_app, IH by lia. cbn [fold_left plus]. rewrite !map_app. cbn [map].
  unfold analyse. assert (D := column_defined orig harm useg ncol c k ltac:(lia)). unfold ent, col. destruct (column orig harm useg ncol c k) as [ps|]; [|congruence].
  unfold entry. destruct (gf ps) as [f|]; [|reflexivity].
  unfold shift_of. destruct shift as [s|].
  - rewrite (nth_error_nth' s 0) by lia. cbn [option_map]. reflexivity.
  - rewrite Rplus_0_r. reflexivity.
Qed.
Lemma analysis_ok : exists r, phonon_fitting_analysis gf orig harm useg ncol c shift = Some r /\
  length (positions r) = ncol /\ length (widths r) = ncol /\ length (errors r) = ncol /\ length (dt_Q2 r) = ncol /\
  forall i, (i < ncol)%nat -> exists ps, column orig harm useg ncol c i = Some ps /\
  (nth i (positions r) 0, nth i (widths r) 0, nth i (errors r) 0, nth i (dt_Q2 r) 0) = entry gf ps (dx i).
Proof.
  unfold phonon_fitting_analysis. rewrite analysis_upto by lia. eexists. split; [reflexivity|]. cbn [positions widths errors dt_Q2]. rewrite !map_length, !seq_length.
  split; [reflexivity|]. split; [reflexivity|]. split; [reflexivity|]. split; [reflexivity|]. intros i Hi.
  assert (D := column_defined orig harm useg ncol c i Hi). destruct (column orig harm useg ncol c i) as [ps|] eqn:E; [|congruence]. exists ps. split; [reflexivity|].
  assert (N : forall g : nat -> R, nth i (map g (seq 0 ncol)) 0 = g i).
  { intros g. rewrite (nth_indep _ 0 (g 0%nat)) by (rewrite map_length, seq_length; exact Hi). rewrite map_nth, seq_nth by exact Hi. reflexivity. }
  rewrite !N. unfold ent, col. rewrite E. destruct (entry gf ps (dx i)) as [[[a b] d] e]. reflexivity.
Qed.
End A.
Definition bad (c : R) (i : nat) : R := match i with O => 0 | S O => 3/2 * c | _ => 9/10 * c end.
Lemma overlap c : 0 < c -> degenerate_sets (bad c) c 3 = [[0; 2]; [1; 2]]%nat.
Proof.
  intros Hc.
  assert (N01 : Rltb (Rabs (bad c 0%nat - bad c 1%nat)) c = false) by (destruct (Rltb _ _) eqn:E; [|reflexivity]; apply Rltb_true in E; cbn in E; rewrite Rabs_left in E by lra; lra).
  assert (N02 : Rltb (Rabs (bad c 0%nat - bad c 2%nat)) c = true) by (apply Rltb_true; cbn; rewrite Rabs_left by lra; lra).
  assert (N12 : Rltb (Rabs (bad c 1%nat - bad c 2%nat)) c = true) by (apply Rltb_true; cbn; rewrite Rabs_right by lra; lra).
  unfold degenerate_sets. cbn [seq fold_left]. unfold set_step at 3. cbn [existsb Nat.add Nat.sub seq fold_left]. unfold join_step at 2, near. cbn [existsb]. rewrite N01. cbn [orb].
  unfold join_step at 1, near. cbn [existsb]. rewrite N02. cbn [orb app].
  unfold set_step at 2. cbn [existsb Nat.eqb orb Nat.add Nat.sub seq fold_left]. unfold join_step, near. cbn [existsb]. rewrite N12. cbn [orb app].
  unfold set_step. cbn [existsb Nat.eqb orb]. reflexivity.
Qed.
Lemma average_unique i data deg w s : NoDup (concat deg) -> In s deg -> In i s -> average_phonon i data deg w = Some (rsum (map (data w) s) / INR (length s)).
Proof.
  induction deg as [|t deg IH]; intros ND Hs Hi; [destruct Hs|]. cbn [average_phonon concat] in *. destruct (existsb (Nat.eqb i) t) eqn:E.
  - destruct Hs as [->|Hs]; [reflexivity|]. exfalso. apply mem_true in E. assert (Hc : In i (concat deg)) by (apply in_concat; exists s; split; assumption).
    clear IH. induction t as [|a t IHt]; [destruct E|]. cbn [app] in ND. inversion ND as [|a' l Ha Hl]; subst. destruct E as [->|E]; [apply Ha, in_or_app; right; exact Hc|exact (IHt Hl E)].
  - destruct Hs as [->|Hs]; [apply mem_true in Hi; congruence|]. apply IH; try assumption. clear -ND. induction t as [|a t IHt]; [exact ND|]. inversion ND. apply IHt. assumption.
Qed.
Lemma column_mean orig harm ncol c s : ascending harm ncol -> In s (degenerate_sets harm c ncol) ->
  forall i, In i s -> exists ps, column orig harm true ncol c i = Some ps /\ forall w, ps w = mean_spectrum orig s w.
Proof.
  intros Ha Hs i Hi. destruct (sets_sorted harm c ncol Ha) as [E _]. assert (ND : NoDup (concat (degenerate_sets harm c ncol))) by (rewrite E; apply seq_NoDup).
  unfold column. cbv zeta. rewrite (average_unique i orig _ 0%nat s ND Hs Hi). eexists. split; [reflexivity|]. intros w. cbv beta. rewrite (average_unique i orig _ w s ND Hs Hi). reflexivity.
Qed.
Lemma not_partition c : 0 < c -> ~ partition 3 (degenerate_sets (bad c) c 3).
Proof. intros Hc P. rewrite (overlap c Hc) in P. apply Permutation_length in P. cbn in P. discriminate. Qed.
Lemma sets_ascending harm c n : ascending harm n ->
  partition n (degenerate_sets harm c n) /\ Forall (linked harm c) (degenerate_sets harm c n) /\ separated harm c (degenerate_sets harm c n).
Proof. intros H. destruct (sets_sorted harm c n H) as [A B]. split; [unfold partition; rewrite A; reflexivity|]. split; [exact (proj1 (sets_general harm c n))|exact B]. Qed.
(** a failed fit leaves the other branches alone *)
Lemma analysis_local gf gf' orig harm useg ncol c shift r r' k :
  match shift with None => True | Some s => (ncol <= length s)%nat end ->
  phonon_fitting_analysis gf orig harm useg ncol c shift = Some r -> phonon_fitting_analysis gf' orig harm useg ncol c shift = Some r' ->
  (forall i ps, (i < ncol)%nat -> i <> k -> column orig harm useg ncol c i = Some ps -> gf ps = gf' ps) ->
  forall i, (i < ncol)%nat -> i <> k -> nth i (positions r) 0 = nth i (positions r') 0 /\ nth i (widths r) 0 = nth i (widths r') 0 /\ nth i (errors r) 0 = nth i (errors r') 0 /\ nth i (dt_Q2 r) 0 = nth i (dt_Q2 r') 0.
Proof.
  intros Hl H1 H2 Hg i Hi Hk. destruct (analysis_ok gf orig harm useg ncol c shift Hl) as [r1 [E1 [_ [_ [_ [_ A1]]]]]]. destruct (analysis_ok gf' orig harm useg ncol c shift Hl) as [r2 [E2 [_ [_ [_ [_ A2]]]]]].
  rewrite H1 in E1. rewrite H2 in E2. inversion E1. inversion E2. subst r1 r2. destruct (A1 i Hi) as [ps [P1 Q1]]. destruct (A2 i Hi) as [ps' [P2 Q2]]. rewrite P1 in P2. inversion P2. subst ps'.
  unfold entry in *. rewrite (Hg i ps Hi Hk P1) in Q1. rewrite <- Q2 in Q1. inversion Q1. tauto.
Qed.
