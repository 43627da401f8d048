From Coq Require Import Lra Lia FinFun.
From Verif Require Import BandsModel BandsSpec ProjectionProofs.
Open Scope R_scope.

(** * inner products *)
Lemma cconj_plus a b : Cconj (Cplus a b) = Cplus (Cconj a) (Cconj b).
Proof. apply injective_projections; cbn; ring. Qed.
Lemma cconj_mult a b : Cconj (Cmult a b) = Cmult (Cconj a) (Cconj b).
Proof. apply injective_projections; cbn; ring. Qed.
Lemma cconj_minus a b : Cconj (Cminus a b) = Cminus (Cconj a) (Cconj b).
Proof. apply injective_projections; cbn; ring. Qed.
Lemma cconj_conj a : Cconj (Cconj a) = a.
Proof. apply injective_projections; cbn; ring. Qed.
Lemma inner_csum n u v : inner n u v = csum n (fun c => Cmult (Cconj (u c)) (v c)).
Proof. induction n as [|n IH]; [reflexivity|]. cbn [inner csum]. rewrite IH. reflexivity. Qed.
Lemma inner_conj n u v : inner n v u = Cconj (inner n u v).
Proof. induction n as [|n IH]; cbn [inner]; [apply injective_projections; cbn; ring|]. rewrite IH, cconj_plus, cconj_mult, cconj_conj. ring. Qed.
Lemma inner_pos n u : 0 <= fst (inner n u u).
Proof. induction n as [|n IH]; [cbn; lra|]. cbn [inner]. unfold Cplus, Cmult, Cconj. cbn [fst snd]. destruct (u n) as [a b]. cbn [fst snd]. nra. Qed.
Lemma inner_expand n r e f x y :
  let w := fun c => Cminus (Cminus (r c) (Cmult x (e c))) (Cmult y (f c)) in
  inner n w w = Cplus (Cplus (Cminus (Cminus (Cminus (Cminus (inner n r r) (Cmult x (inner n r e))) (Cmult y (inner n r f))) (Cmult (Cconj x) (inner n e r))) (Cmult (Cconj y) (inner n f r)))
    (Cplus (Cmult (Cmult (Cconj x) x) (inner n e e)) (Cmult (Cmult (Cconj y) y) (inner n f f)))) (Cplus (Cmult (Cmult (Cconj x) y) (inner n e f)) (Cmult (Cmult (Cconj y) x) (inner n f e))).
Proof.
  cbv zeta. induction n as [|n IH]; cbn [inner]; [ring|]. rewrite IH. rewrite !cconj_minus, !cconj_mult. ring.
Qed.
Lemma cmod_sqr z : Rsqr (Cmod z) = fst z * fst z + snd z * snd z.
Proof. unfold Cmod. rewrite Rsqr_sqrt; [ring|]. nra. Qed.
Lemma bessel2 n r e f : inner n r r = RtoC 1 -> inner n e e = RtoC 1 -> inner n f f = RtoC 1 -> inner n e f = RtoC 0 ->
  Rsqr (Cmod (inner n r e)) + Rsqr (Cmod (inner n r f)) <= 1.
Proof.
  intros Hr He Hf Hef. assert (Hfe : inner n f e = RtoC 0) by (rewrite inner_conj, Hef; apply injective_projections; cbn; ring).
  set (a := inner n r e) in *. set (b := inner n r f) in *.
  assert (P := inner_pos n (fun c => Cminus (Cminus (r c) (Cmult (Cconj a) (e c))) (Cmult (Cconj b) (f c)))).
  rewrite (inner_expand n r e f (Cconj a) (Cconj b)) in P. rewrite Hr, He, Hf, Hef, Hfe in P. rewrite (inner_conj n r e), (inner_conj n r f) in P. fold a b in P.
  rewrite !cmod_sqr. destruct a as [a1 a2], b as [b1 b2]. cbn in *. nra.
Qed.
Lemma cmod_conj z : Cmod (Cconj z) = Cmod z.
Proof. unfold Cmod, Cconj. cbn. f_equal. ring. Qed.
Lemma orthonormal_self n e i : orthonormal n e -> (i < n)%nat -> inner n (mode e i) (mode e i) = RtoC 1.
Proof. intros H Hi. rewrite H by exact Hi. destruct (Nat.eq_dec i i); [reflexivity|lia]. Qed.
Lemma orthonormal_other n e i j : orthonormal n e -> (i < n)%nat -> (j < n)%nat -> i <> j -> inner n (mode e i) (mode e j) = RtoC 0.
Proof. intros H Hi Hj N. rewrite H by assumption. destruct (Nat.eq_dec i j); [lia|reflexivity]. Qed.
Lemma overlap_inner n ref ev i j : overlap n ref ev i j = Cmod (inner n (mode ref i) (mode ev j)).
Proof. unfold overlap. rewrite inner_csum. reflexivity. Qed.
(** the strongly matched mode is the only one, and the larger overlap *)
Lemma match_larger n e e' i j j' : orthonormal n e -> orthonormal n e' -> (i < n)%nat -> (j < n)%nat -> (j' < n)%nat -> j <> j' -> same_mode n e e' i j ->
  overlap n e e' i j' < overlap n e e' i j.
Proof.
  intros He He' Hi Hj Hj' N S. rewrite !overlap_inner. unfold same_mode in S.
  assert (B := bessel2 n (mode e i) (mode e' j) (mode e' j') (orthonormal_self _ _ _ He Hi) (orthonormal_self _ _ _ He' Hj) (orthonormal_self _ _ _ He' Hj') (orthonormal_other _ _ _ _ He' Hj Hj' N)).
  apply Rsqr_incrst_0; [lra| |]; apply Cmod_ge_0.
Qed.
Lemma match_inj n e e' i i' j : orthonormal n e -> orthonormal n e' -> (i < n)%nat -> (i' < n)%nat -> (j < n)%nat -> same_mode n e e' i j -> same_mode n e e' i' j -> i = i'.
Proof.
  intros He He' Hi Hi' Hj S S'. destruct (Nat.eq_dec i i') as [E|N]; [exact E|exfalso]. unfold same_mode in *.
  rewrite inner_conj, cmod_conj in S, S'.
  assert (B := bessel2 n (mode e' j) (mode e i) (mode e i') (orthonormal_self _ _ _ He' Hj) (orthonormal_self _ _ _ He Hi) (orthonormal_self _ _ _ He Hi') (orthonormal_other _ _ _ _ He Hi Hi' N)). lra.
Qed.
Lemma inj_rearrangement n s : (forall i, (i < n)%nat -> (s i < n)%nat) -> (forall i j, (i < n)%nat -> (j < n)%nat -> s i = s j -> i = j) -> rearrangement n s.
Proof.
  intros B I. split; [exact B|]. split; [exact I|]. intros j Hj.
  destruct (proj1 (bInjective_bSurjective B) I j Hj) as (i & Hi & E). exists i. split; assumption.
Qed.

(** * argmax *)
Lemma argmax_from_spec f : forall l k best, (best < k)%nat -> (forall j, (j < k)%nat -> f j <= f best) -> (forall j, (j < best)%nat -> f j < f best) ->
  let r := argmax_from f k best l in (r < k + l)%nat /\ (forall j, (j < k + l)%nat -> f j <= f r) /\ (forall j, (j < r)%nat -> f j < f r).
Proof.
  induction l as [|l IH]; intros k best Hb H1 H2; cbn [argmax_from]; cbv zeta.
  - rewrite Nat.add_0_r. auto.
  - replace (k + S l)%nat with (S k + l)%nat by lia. destruct (Rlt_dec (f best) (f k)) as [L|L].
    + apply IH; [lia| |].
      * intros j Hj. destruct (Nat.eq_dec j k) as [->|]; [lra|]. assert (f j <= f best) by (apply H1; lia). lra.
      * intros j Hj. assert (f j <= f best) by (apply H1; lia). lra.
    + apply IH; [lia| |exact H2]. intros j Hj. destruct (Nat.eq_dec j k) as [->|]; [lra|]. apply H1. lia.
Qed.
Lemma argmax_spec n f : (0 < n)%nat -> (argmax n f < n)%nat /\ (forall j, (j < n)%nat -> f j <= f (argmax n f)) /\ (forall j, (j < argmax n f)%nat -> f j < f (argmax n f)).
Proof.
  intros Hn. assert (A := argmax_from_spec f (n - 1) 1 0 ltac:(lia)). cbv zeta in A. replace (1 + (n - 1))%nat with n in A by lia. apply A.
  - intros j Hj. replace j with 0%nat by lia. lra.
  - intros j Hj. lia.
Qed.
Lemma argmax_first n f k : (k < n)%nat -> (forall j, (j < n)%nat -> f j <= f k) -> (forall j, (j < k)%nat -> f j < f k) -> argmax n f = k.
Proof.
  intros Hk H1 H2. destruct (argmax_spec n f ltac:(lia)) as (A & B & D). set (r := argmax n f) in *.
  destruct (Nat.lt_trichotomy r k) as [L|[E|L]]; [|exact E|].
  - assert (f k <= f r) by (apply B; exact Hk). assert (f r < f k) by (apply H2; exact L). lra.
  - assert (f k < f r) by (apply D; exact L). assert (f r <= f k) by (apply H1; exact A). lra.
Qed.
Lemma argmax_best n f k : (k < n)%nat -> (forall j, (j < n)%nat -> j <> k -> f j < f k) -> argmax n f = k.
Proof.
  intros Hk H. apply argmax_first; [exact Hk| |].
  - intros j Hj. destruct (Nat.eq_dec j k) as [->|N]; [lra|]. left. apply H; assumption.
  - intros j Hj. apply H; lia.
Qed.
Lemma argmax_lt n f : (0 < n)%nat -> (argmax n f < n)%nat.
Proof. intros H. apply argmax_spec, H. Qed.

(** * sums of overlaps *)
Lemma sum_upto_lt f g : forall n, (0 < n)%nat -> (forall q, (q < n)%nat -> f q < g q) -> sum_upto n f < sum_upto n g.
Proof.
  induction n as [|n IH]; intros Hn H; [lia|]. cbn [sum_upto]. destruct n as [|n].
  - cbn [sum_upto]. assert (f 0%nat < g 0%nat) by (apply H; lia). lra.
  - assert (sum_upto (S n) f < sum_upto (S n) g) by (apply IH; [lia|intros; apply H; lia]). assert (f (S n) < g (S n)) by (apply H; lia). lra.
Qed.

(** * reordering *)
Section R.
Context (m : nat).
Lemma order_matched ref ev i j : npoints ref = npoints ev -> (0 < npoints ref)%nat ->
  (forall q, (q < npoints ref)%nat -> orthonormal m (evec ref q)) -> (forall q, (q < npoints ref)%nat -> orthonormal m (evec ev q)) ->
  (i < m)%nat -> (j < m)%nat -> (forall q, (q < npoints ref)%nat -> same_mode m (evec ref q) (evec ev q) i j) -> eigenvector_order m ref ev i = j.
Proof.
  intros Np Pp Or Oe Hi Hj S. unfold eigenvector_order. apply argmax_best; [exact Hj|]. intros j' Hj' N. unfold metric. rewrite <- Np, Nat.min_id.
  apply sum_upto_lt; [exact Pp|]. intros q Hq. apply match_larger; auto.
Qed.
Lemma set_order_nth : forall bands renormalized i b r, nth_error bands i = Some b -> nth_error renormalized i = Some r ->
  nth_error (set_order m bands renormalized) i = Some (set_freq r (take_freq (eigenvector_order m b r) (freq r))).
Proof.
  induction bands as [|b0 bands IH]; intros [|r0 renormalized] [|i] b r Hb Hr; cbn in *; try discriminate.
  - injection Hb as ->. injection Hr as ->. reflexivity.
  - apply (IH _ _ _ _ Hb Hr).
Qed.
Lemma set_order_length : forall bands renormalized, List.length (set_order m bands renormalized) = List.length renormalized.
Proof. induction bands as [|b0 bands IH]; intros [|r0 renormalized]; cbn; try reflexivity. rewrite IH. reflexivity. Qed.
Lemma reconnect_from_length : forall l prev, List.length (reconnect_from m prev l) = List.length l.
Proof. induction l as [|s l IH]; intros prev; cbn; [reflexivity|]. rewrite IH. reflexivity. Qed.
Lemma reconnect_length l : List.length (reconnect_eigenvectors m l) = List.length l.
Proof. destruct l; cbn; [reflexivity|]. rewrite reconnect_from_length. reflexivity. Qed.
Lemma reconnect_from_nth : (0 < m)%nat -> forall l prev i s', nth_error (reconnect_from m prev l) i = Some s' ->
  exists s order, nth_error l i = Some s /\ s' = reorder order s /\ forall b, (order b < m)%nat.
Proof.
  intros Hm. induction l as [|s l IH]; intros prev [|i] s' H; cbn in H; try discriminate.
  - injection H as <-. exists s, (joint_order m prev s). split; [reflexivity|]. split; [reflexivity|]. intros b. apply argmax_lt, Hm.
  - apply (IH _ _ _ H).
Qed.
(** every stretch of the result is the original stretch with its branches taken in some order, or the first stretch unchanged *)
Lemma reconnect_nth : (0 < m)%nat -> forall l i s', nth_error (reconnect_eigenvectors m l) i = Some s' ->
  exists s order, nth_error l i = Some s /\ (forall b, (b < m)%nat -> (order b < m)%nat) /\ (npoints s' = npoints s) /\ distance s' = distance s /\
    (forall q b, freq s' q b = freq s q (order b)) /\ (forall q c b, evec s' q c b = evec s q c (order b)).
Proof.
  intros Hm [|s0 l] [|i] s' H; cbn in H; try discriminate.
  - injection H as <-. exists s0, (fun b => b). repeat split; auto.
  - destruct (reconnect_from_nth Hm l s0 i s' H) as (s & o & E & -> & B). exists s, o. repeat split; auto.
Qed.
End R.
Lemma collect_some {A} (f : nat -> option A) : forall l r, collect f l = Some r -> List.length r = List.length l /\ forall k i, nth_error l k = Some i -> exists x, f i = Some x /\ nth_error r k = Some x.
Proof.
  induction l as [|i0 l IH]; intros r H; cbn in H.
  - injection H as <-. split; [reflexivity|]. intros [|k] i; discriminate.
  - destruct (f i0) as [x|] eqn:F; [|discriminate]. destruct (collect f l) as [r'|] eqn:Q; [|discriminate]. injection H as <-. destruct (IH r' eq_refl) as (L & N).
    split; [cbn; lia|]. intros [|k] i; cbn.
    + intros E. injection E as <-. exists x. split; [exact F|reflexivity].
    + apply N.
Qed.
Lemma collect_total {A} (f : nat -> option A) : forall l, (forall i, In i l -> exists x, f i = Some x) -> exists r, collect f l = Some r.
Proof.
  induction l as [|i0 l IH]; intros H; cbn; [exists []; reflexivity|]. destruct (H i0 (or_introl eq_refl)) as (x & ->). destruct IH as (r & ->); [intros i Hi; apply H; right; exact Hi|].
  eexists; reflexivity.
Qed.
Lemma nth_error_seq0 n i : (i < n)%nat -> nth_error (seq 0 n) i = Some i.
Proof. intros H. rewrite (nth_error_nth' _ 0%nat) by (rewrite seq_length; exact H). rewrite seq_nth by exact H. reflexivity. Qed.

(** * reconnection *)
Section J.
Context (m : nat).
Definition rearranged (s s' : segment) (o : nat -> nat) : Prop :=
  rearrangement m o /\ npoints s' = npoints s /\ distance s' = distance s /\ (forall q b, freq s' q b = freq s q (o b)) /\ (forall q c b, evec s' q c b = evec s q c (o b)).
Lemma inner_ext n u u' v v' : (forall c, u c = u' c) -> (forall c, v c = v' c) -> inner n u v = inner n u' v'.
Proof. intros Hu Hv. induction n as [|n IH]; [reflexivity|]. cbn [inner]. rewrite IH, Hu, Hv. reflexivity. Qed.
Lemma reconnect_chain : (0 < m)%nat -> forall l prev prev' o, rearranged prev prev' o -> orthonormal m (evec prev (npoints prev - 1)) ->
  (forall s, In s l -> orthonormal m (evec s 0) /\ orthonormal m (evec s (npoints s - 1))) ->
  (forall k a b, nth_error (prev :: l) k = Some a -> nth_error (prev :: l) (S k) = Some b -> forall i, (i < m)%nat -> exists j, (j < m)%nat /\ same_mode m (evec a (npoints a - 1)) (evec b 0) i j) ->
  (forall k s s', nth_error (prev :: l) k = Some s -> nth_error (prev' :: reconnect_from m prev' l) k = Some s' -> exists o', rearranged s s' o') /\
  (forall k a b, nth_error (prev' :: reconnect_from m prev' l) k = Some a -> nth_error (prev' :: reconnect_from m prev' l) (S k) = Some b ->
     forall i, (i < m)%nat -> same_mode m (evec a (npoints a - 1)) (evec b 0) i i).
Proof.
  intros Hm. induction l as [|s l IH]; intros prev prev' o R Op Ol M.
  - split; [|intros [|k] a b Ha Hb; cbn in *; try discriminate; destruct k; discriminate].
    intros [|k] x x' Hx Hx'; cbn in *; [|destruct k; discriminate]. injection Hx as <-. injection Hx' as <-. exists o. exact R.
  - destruct R as (Ro & Rn & Rd & Rf & Re). destruct (Ol s (or_introl eq_refl)) as (O0 & OL).
    set (s' := reorder (joint_order m prev' s) s).
    assert (J : forall i, (i < m)%nat -> (joint_order m prev' s i < m)%nat /\ same_mode m (evec prev (npoints prev - 1)) (evec s 0) (o i) (joint_order m prev' s i)).
    { intros i Hi. destruct (M 0%nat prev s eq_refl eq_refl (o i) (proj1 Ro i Hi)) as (j & Hj & Hs).
      assert (E : joint_order m prev' s i = j).
      { unfold joint_order. apply argmax_best; [exact Hj|]. intros j' Hj' N.
        assert (X : forall z, overlap m (evec prev' (npoints prev' - 1)) (evec s 0) i z = overlap m (evec prev (npoints prev - 1)) (evec s 0) (o i) z).
        { intros z. unfold overlap. f_equal. apply csum_ext. intros c _. rewrite Rn, Re. reflexivity. }
        rewrite !X. apply match_larger; auto. apply (proj1 Ro), Hi. }
      rewrite E. split; assumption. }
    assert (Ro' : rearrangement m (joint_order m prev' s)).
    { apply inj_rearrangement; [intros i Hi; apply J, Hi|]. intros i i' Hi Hi' E. destruct (J i Hi) as (B & S). destruct (J i' Hi') as (B' & S'). rewrite <- E in S'.
      assert (Eo : o i = o i'). { apply (match_inj m _ _ _ _ _ Op O0 (proj1 Ro i Hi) (proj1 Ro i' Hi') B S S'). }
      apply (proj1 (proj2 Ro)); assumption. }
    assert (R' : rearranged s s' (joint_order m prev' s)) by (split; [exact Ro'|]; repeat split; reflexivity).
    destruct (IH s s' _ R' OL (fun x Hx => Ol x (or_intror Hx)) (fun k a b Ha Hb => M (S k) a b Ha Hb)) as (I1 & I2). split.
    + intros [|k] x x' Hx Hx'; cbn [nth_error reconnect_from] in *.
      * injection Hx as <-. injection Hx' as <-. exists o. split; [exact Ro|auto].
      * apply (I1 k x x' Hx Hx').
    + intros [|k] a b Ha Hb i Hi.
      * cbn in Ha, Hb. injection Ha as <-. injection Hb as <-. destruct (J i Hi) as (_ & S). unfold same_mode in *. 
        rewrite (inner_ext m _ (mode (evec prev (npoints prev - 1)) (o i)) _ (mode (evec s 0) (joint_order m prev' s i))); [exact S| |].
        -- intros c. unfold mode. rewrite Rn, Re. reflexivity.
        -- intros c. reflexivity.
      * cbn [reconnect_from] in Ha, Hb. change (nth_error (s' :: reconnect_from m s' l) k = Some a) in Ha. change (nth_error (s' :: reconnect_from m s' l) (S k) = Some b) in Hb. apply (I2 k a b Ha Hb i Hi).
Qed.
End J.

(** * the returned list *)
Section API.
Context (m : nat) {point FC : Type} (dispersion : option FC -> bool -> list segment) (rfc : (nat -> nat -> R) -> FC) (fr lw : nat -> nat -> R)
        (ranges : list (point * point)) (labels : option (list (string * string))).
Notation get := (get_renormalized_phonon_dispersion_bands m dispersion rfc fr lw ranges labels).
Lemma api_entries wl ic bc out i d : get wl ic bc = Some out -> nth_error out i = Some d ->
  let bands := if ic then reconnect_eigenvectors m (dispersion None bc) else dispersion None bc in
  let ordered b := if bc then set_order m bands b else b in
  exists h r s f, nth_error bands i = Some h /\ nth_error (ordered (dispersion (Some (rfc fr)) bc)) i = Some r /\
    nth_error (ordered (dispersion (Some (rfc (fun i j => fr i j + lw i j / 2))) bc)) i = Some s /\ nth_error (ordered (dispersion (Some (rfc (fun i j => fr i j - lw i j / 2))) bc)) i = Some f /\
    nth_error ranges i = Some (q_inf d, q_sup d) /\ labels_of d = (match labels with Some l => nth_error l i | None => None end) /\ (labels <> None -> labels_of d <> None) /\
    q_path_distances d = distance h /\ (forall b q, harmonic_frequencies d b q = freq h q b) /\ (forall b q, renormalized_frequencies d b q = freq r q b) /\
    (forall b q, frequency_shifts d b q = freq r q b - freq h q b) /\
    linewidth_minus d = (if wl then Some (fun b q => freq f q b) else None) /\ linewidth_plus d = (if wl then Some (fun b q => freq s q b) else None) /\
    linewidth d = (if wl then Some (fun b q => freq s q b - freq f q b) else None).
Proof.
  intros H Hi bands ordered. unfold get in H. cbv zeta in H. fold bands in H. destruct (collect_some _ _ _ H) as (L & N). rewrite seq_length in L.
  assert (B : (i < List.length bands)%nat) by (rewrite <- L; apply nth_error_Some; rewrite Hi; discriminate).
  destruct (N i i (nth_error_seq0 _ _ B)) as (x & F & E). rewrite Hi in E. injection E as <-. clear N H.
  destruct (nth_error bands i) as [h|]; [|discriminate].
  destruct (nth_error (if bc then set_order m bands (dispersion (Some (rfc fr)) bc) else dispersion (Some (rfc fr)) bc) i) as [r|] eqn:Er; [|discriminate].
  match type of F with context [match nth_error ?x i with _ => _ end] => destruct (nth_error x i) as [s|] eqn:Es; [|discriminate] end.
  match type of F with context [match nth_error ?x i with _ => _ end] => destruct (nth_error x i) as [f|] eqn:Ef; [|discriminate] end.
  destruct (nth_error ranges i) as [[a b]|]; [|discriminate].
  destruct labels as [ls|].
  - destruct (nth_error ls i) as [lab|]; [|discriminate]. injection F as <-. exists h, r, s, f. repeat split; try assumption; try discriminate; destruct wl; reflexivity.
  - injection F as <-. exists h, r, s, f. repeat split; try assumption; try congruence; destruct wl; reflexivity.
Qed.
End API.
Lemma api_total m {point FC} (dispersion : option FC -> bool -> list segment) rfc fr lw (ranges : list (point * point)) labels wl ic bc :
  (forall fc, List.length (dispersion fc bc) = List.length ranges) -> (forall l, labels = Some l -> List.length l = List.length ranges) ->
  exists out, get_renormalized_phonon_dispersion_bands m dispersion rfc fr lw ranges labels wl ic bc = Some out /\ List.length out = List.length ranges.
Proof.
  intros Hd Hl. unfold get_renormalized_phonon_dispersion_bands. set (bands := if ic then _ else _).
  assert (Lb : List.length bands = List.length ranges) by (unfold bands; destruct ic; [rewrite reconnect_length|]; apply Hd).
  assert (Lo : forall fc, List.length (if bc then set_order m bands (dispersion fc bc) else dispersion fc bc) = List.length ranges) by (intros fc; destruct bc; [rewrite set_order_length|]; apply Hd).
  match goal with |- exists out, collect ?f ?l = Some out /\ _ => destruct (collect_total f l) as (r & Hr) end.
  - intros i Hi. apply in_seq in Hi. cbv zeta.
    assert (S : forall (A : Type) (l : list A), List.length l = List.length ranges -> exists x, nth_error l i = Some x).
    { intros A l E. destruct (nth_error l i) eqn:Q; [eexists; reflexivity|]. apply nth_error_None in Q. lia. }
    destruct (S _ bands Lb) as (? & ->). destruct (S _ _ (Lo (Some (rfc fr)))) as (? & ->).
    destruct (S _ _ (Lo (Some (rfc (fun i j => fr i j + lw i j / 2))))) as (? & ->). destruct (S _ _ (Lo (Some (rfc (fun i j => fr i j - lw i j / 2))))) as (? & ->).
    destruct (S _ ranges eq_refl) as (? & ->). destruct labels as [ls|]; [destruct (S _ ls (Hl ls eq_refl)) as (? & ->)|]; eexists; reflexivity.
  - exists r. split; [exact Hr|]. apply collect_some in Hr. destruct Hr as (L & _). rewrite seq_length in L. lia.
Qed.

(** * concrete eigenvectors *)
Definition unit_modes : nat -> nat -> C := fun c b => if Nat.eqb c b then RtoC 1 else RtoC 0.
Definition swapped_modes : nat -> nat -> C := fun c b => unit_modes c (match b with 0 => 1 | 1 => 0 | _ => b end)%nat.
Definition half : R := sqrt (1/2).
Lemma half_pos : 0 < half. Proof. apply sqrt_lt_R0. lra. Qed.
Lemma half_sqr : half * half = 1/2. Proof. apply sqrt_sqrt. lra. Qed.
(** the first two modes turned by 45 degrees *)
Definition turned_modes : nat -> nat -> C := fun c b =>
  RtoC (match c, b with O, O => half | O, 1%nat => half | 1%nat, O => half | 1%nat, 1%nat => - half | _, _ => if Nat.eqb c b then 1 else 0 end).
Ltac three i := destruct i as [|[|[|i]]]; [| | |exfalso; lia].
Ltac inner3 := apply injective_projections; cbn; rewrite ?half_sqr; try ring.
Lemma unit_orthonormal : orthonormal 3 unit_modes.
Proof. intros i j Hi Hj. three i; three j; inner3. Qed.
Lemma swapped_orthonormal : orthonormal 3 swapped_modes.
Proof. intros i j Hi Hj. three i; three j; inner3. Qed.
Lemma turned_orthonormal : orthonormal 3 turned_modes.
Proof. assert (H := half_sqr). intros i j Hi Hj. three i; three j; apply injective_projections; cbn; nra. Qed.
Lemma unit_overlap e i j : (i < 3)%nat -> overlap 3 unit_modes e i j = Cmod (e i j).
Proof. intros Hi. unfold overlap. f_equal. three i; cbn [csum]; unfold unit_modes; cbn [Nat.eqb]; apply injective_projections; cbn; ring. Qed.
Lemma turned_overlap i j : (i < 3)%nat -> (j < 3)%nat -> overlap 3 unit_modes turned_modes i j = match i, j with 2%nat, 2%nat => 1 | 2%nat, _ => 0 | _, 2%nat => 0 | _, _ => half end.
Proof.
  intros Hi Hj. rewrite unit_overlap by exact Hi. assert (H := half_pos). three i; three j; unfold turned_modes; cbn; rewrite Cmod_R; try (apply Rabs_pos_eq; lra).
  rewrite Rabs_left by lra. ring.
Qed.
Lemma sum_upto_const x n : sum_upto n (fun _ => x) = INR n * x.
Proof. induction n as [|n IH]; [cbn; ring|]. cbn [sum_upto]. rewrite IH, S_INR. ring. Qed.
Lemma turned_order n dist dist' fh f i : (0 < n)%nat -> (i < 3)%nat ->
  eigenvector_order 3 (MkS n dist fh (fun _ => unit_modes)) (MkS n dist' f (fun _ => turned_modes)) i = match i with 2%nat => 2%nat | _ => 0%nat end.
Proof.
  intros Hn Hi. assert (Pn : 0 < INR n) by (apply lt_0_INR, Hn). assert (H := half_pos).
  assert (M : forall j, (j < 3)%nat -> metric 3 (MkS n dist fh (fun _ => unit_modes)) (MkS n dist' f (fun _ => turned_modes)) i j = INR n * match i, j with 2%nat, 2%nat => 1 | 2%nat, _ => 0 | _, 2%nat => 0 | _, _ => half end).
  { intros j Hj. unfold metric. cbn [npoints evec]. rewrite Nat.min_id. rewrite sum_upto_const, turned_overlap by assumption. reflexivity. }
  unfold eigenvector_order. three i; apply argmax_first; try lia; intros j Hj; rewrite ?(M j) by lia; rewrite ?(M 0%nat), ?(M 2%nat) by lia; try lia; try (three j; nra).
  destruct j as [|[|j]]; [nra|nra|lia].
Qed.
