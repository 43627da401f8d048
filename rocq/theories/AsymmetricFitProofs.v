(** Sums of polynomials times exponentials with many zeros, and the coefficients of the asymmetric Lorentzian that share a curve. *)
From Coq Require Import Reals List Sorted Lra Lia Psatz.
Import ListNotations.
From Verif Require Import FitFunctionsModel ExactFitProps.
Open Scope R_scope.

(* ---------- zeros of exponential polynomials ---------- *)
(** the function becomes 0 after n times "multiply by an exponential and differentiate" *)
Fixpoint vanishes_after (n : nat) (f : R -> R) : Prop :=
  match n with
  | O => forall x, f x = 0
  | S n' => exists k g, (forall x, derivable_pt_lim (fun x => f x * exp (- k * x)) x (g x)) /\ vanishes_after n' g
  end.
Lemma sort_insert x l : Sorted Rlt l -> ~ In x l -> exists l', Sorted Rlt l' /\ length l' = S (length l) /\ (forall y, In y l' -> y = x \/ In y l) /\ (forall z, HdRel Rlt z l -> z < x -> HdRel Rlt z l').
Proof.
  induction l as [|y l IH]; intros S N.
  - exists (x :: nil). repeat split; [repeat constructor| |]; [intros y [<-|[]]; auto|intros z _ H; constructor; exact H].
  - destruct (Rlt_dec x y) as [H|H].
    + exists (x :: y :: l). repeat split; [constructor; [exact S|constructor; exact H]| |]; [intros z [<-|Hz]; auto|intros z _ Hz; constructor; exact Hz].
    + inversion S as [|? ? S1 S2]; subst. assert (Hne : y <> x) by (intros ->; apply N; left; reflexivity).
      destruct IH as (l' & A & B & D & G); [exact S1|intros Hin; apply N; right; exact Hin|]. exists (y :: l'). repeat split.
      * constructor; [exact A|]. apply G; [exact S2|lra].
      * cbn. lia.
      * intros z [<-|Hz]; [right; left; reflexivity|]. destruct (D z Hz) as [->|Hz']; [left; reflexivity|right; right; exact Hz'].
      * intros z Hz _. inversion Hz; subst. constructor. assumption.
Qed.
Lemma sort_exists l : NoDup l -> exists l', Sorted Rlt l' /\ length l' = length l /\ forall y, In y l' -> In y l.
Proof.
  induction l as [|x l IH]; intros N; [exists []; repeat split; auto|]. inversion N as [|? ? N1 N2]; subst. destruct (IH N2) as (l1 & S1 & L1 & I1).
  destruct (sort_insert x l1 S1) as (l2 & S2 & L2 & I2 & _); [intros H; apply N1, I1, H|]. exists l2. split; [exact S2|]. split; [cbn; lia|].
  intros y Hy. destruct (I2 y Hy) as [->|H]; [left; reflexivity|right; apply I1, H].
Qed.
Lemma rolle h g x l : (forall x, derivable_pt_lim h x (g x)) -> Sorted Rlt (x :: l) -> (forall y, In y (x :: l) -> h y = 0) ->
  exists l', Sorted Rlt l' /\ length l' = length l /\ HdRel Rlt x l' /\ forall y, In y l' -> g y = 0.
Proof.
  intros D. revert x. induction l as [|x1 l IH]; intros x S Z; [exists []; repeat split; [constructor|constructor|intros y []]|].
  inversion S as [|? ? S1 S2]; subst. inversion S2 as [|? ? Hlt]; subst. destruct (IH x1 S1) as (l' & A & B & C & E); [intros y Hy; apply Z; right; exact Hy|].
  destruct (MVT_cor2 h g x x1 Hlt) as (c & E1 & Hc); [intros c _; apply D|]. rewrite (Z x1), (Z x) in E1 by (cbn; auto).
  assert (g c = 0). { assert (Q : g c * (x1 - x) = 0) by lra. apply Rmult_integral in Q as [Q|Q]; [exact Q|lra]. }
  exists (c :: l'). repeat split.
  - constructor; [exact A|]. inversion C; subst; constructor; lra.
  - cbn. lia.
  - constructor. lra.
  - intros y [<-|Hy]; [assumption|apply E, Hy].
Qed.
Lemma many_zeros n : forall f l, vanishes_after n f -> Sorted Rlt l -> (n <= length l)%nat -> (forall x, In x l -> f x = 0) -> forall x, f x = 0.
Proof.
  induction n as [|n IH]; intros f l V S L Z; [exact V|]. destruct V as (k & g & D & V). destruct l as [|x0 l]; [cbn in L; lia|].
  assert (Zh : forall y, In y (x0 :: l) -> f y * exp (- k * y) = 0) by (intros y Hy; rewrite (Z y Hy); ring).
  destruct (rolle _ g x0 l D S Zh) as (l' & S' & L' & _ & Z'). assert (G : forall x, g x = 0) by (apply (IH g l' V S'); [cbn in L; lia|exact Z']).
  assert (K : forall x, f x * exp (- k * x) = 0).
  { intros x. assert (Z0 := Zh x0 (or_introl eq_refl)). destruct (Rtotal_order x x0) as [Hlt|[->|Hlt]]; [|exact Z0|].
    - destruct (MVT_cor2 _ g x x0 Hlt (fun c _ => D c)) as (c & E & _). rewrite (G c) in E. lra.
    - destruct (MVT_cor2 _ g x0 x Hlt (fun c _ => D c)) as (c & E & _). rewrite (G c) in E. lra. }
  intros x. specialize (K x). apply Rmult_integral in K as [K|K]; [exact K|]. assert (P := exp_pos (- k * x)). lra.
Qed.
Lemma many_zeros_nodup n f l : vanishes_after n f -> NoDup l -> (n <= length l)%nat -> (forall x, In x l -> f x = 0) -> forall x, f x = 0.
Proof. intros V N L Z. destruct (sort_exists l N) as (l' & S & L' & I). apply (many_zeros n f l' V S); [lia|]. intros x Hx. apply Z, I, Hx. Qed.
Lemma vanishes_ext n : forall f f', (forall x, f x = f' x) -> vanishes_after n f -> vanishes_after n f'.
Proof.
  induction n as [|n IH]; intros f f' E V; [intros x; rewrite <- E; apply V|]. destruct V as (k & g & D & V). exists k, g. split; [|exact V].
  intros x e He. destruct (D x e He) as [d H]. exists d. intros h Hh Hd. rewrite <- !E. apply H; assumption.
Qed.

(* polynomials as lists of coefficients *)
Fixpoint padd (p q : list R) : list R := match p, q with [], _ => q | _, [] => p | a :: p', b :: q' => (a + b) :: padd p' q' end.
Lemma padd_ev p : forall q x, ev (padd p q) x = ev p x + ev q x.
Proof. induction p as [|a p IH]; intros [|b q] x; cbn [padd ev]; try ring. rewrite IH. ring. Qed.
Lemma padd_length p : forall q, length (padd p q) = Nat.max (length p) (length q).
Proof. induction p as [|a p IH]; intros [|b q]; cbn [padd length]; try reflexivity. rewrite IH. reflexivity. Qed.
Fixpoint dcoef (p : list R) : list R := match p with [] => [] | _ :: q => match q with [] => [] | _ => padd q (0 :: dcoef q) end end.
Lemma dcoef_length p : length (dcoef p) = (length p - 1)%nat.
Proof. induction p as [|a [|b q] IH]; [reflexivity|reflexivity|]. change (dcoef (a :: b :: q)) with (padd (b :: q) (0 :: dcoef (b :: q))). rewrite padd_length. cbn [length] in *. rewrite IH. lia. Qed.
Lemma dcoef_ev p x : derivable_pt_lim (ev p) x (ev (dcoef p) x).
Proof.
  induction p as [|a q IH]; [apply derivable_pt_lim_const|].
  assert (E : ev (dcoef (a :: q)) x = 0 + (1 * ev q x + x * ev (dcoef q) x)).
  { destruct q as [|b q]; [cbn; ring|]. change (dcoef (a :: b :: q)) with (padd (b :: q) (0 :: dcoef (b :: q))). rewrite padd_ev. cbn [ev]. ring. }
  rewrite E. change (ev (a :: q)) with (plus_fct (fct_cte a) (mult_fct id (ev q))). apply derivable_pt_lim_plus; [apply derivable_pt_lim_const|].
  apply derivable_pt_lim_mult; [apply derivable_pt_lim_id|exact IH].
Qed.
Definition dshift (k : R) (p : list R) : list R := padd (dcoef p) (map (Rmult k) p).
Lemma scale_ev k p x : ev (map (Rmult k) p) x = k * ev p x.
Proof. induction p as [|a p IH]; cbn [map ev]; [ring|]. rewrite IH. ring. Qed.
Lemma dshift_length k p : length (dshift k p) = length p.
Proof. unfold dshift. rewrite padd_length, dcoef_length, map_length. lia. Qed.
Lemma exp_lim k x : derivable_pt_lim (fun x => exp (k * x)) x (k * exp (k * x)).
Proof.
  rewrite Rmult_comm. apply (derivable_pt_lim_comp (fun x => k * x) exp); [|apply derivable_pt_lim_exp].
  assert (H : derivable_pt_lim (fun x => k * x) x (0 * x + k * 1)) by (apply (derivable_pt_lim_mult (fct_cte k) id); [apply derivable_pt_lim_const|apply derivable_pt_lim_id]).
  replace (0 * x + k * 1) with k in H by ring. exact H.
Qed.
Lemma term_lim k p x : derivable_pt_lim (fun x => ev p x * exp (k * x)) x (ev (dshift k p) x * exp (k * x)).
Proof.
  unfold dshift. rewrite padd_ev, scale_ev. replace ((ev (dcoef p) x + k * ev p x) * exp (k * x)) with (ev (dcoef p) x * exp (k * x) + ev p x * (k * exp (k * x))) by ring.
  apply (derivable_pt_lim_mult (ev p) (fun x => exp (k * x))); [apply dcoef_ev|apply exp_lim].
Qed.

(** sum of terms (p, k): polynomial p times exp (k x) *)
Definition esum (ts : list (list R * R)) (x : R) : R := fold_right Rplus 0 (map (fun t => ev (fst t) x * exp (snd t * x)) ts).
Definition size (ts : list (list R * R)) : nat := fold_right Nat.add 0%nat (map (fun t => length (fst t)) ts).
Lemma esum_cons t ts x : esum (t :: ts) x = ev (fst t) x * exp (snd t * x) + esum ts x.
Proof. reflexivity. Qed.
Lemma esum_lim ts x : derivable_pt_lim (esum ts) x (esum (map (fun t => (dshift (snd t) (fst t), snd t)) ts) x).
Proof.
  induction ts as [|(p, k) ts IH]; [apply derivable_pt_lim_const|]. cbn [map]. rewrite esum_cons. cbn [fst snd].
  apply (derivable_pt_lim_plus (fun x => ev p x * exp (k * x)) (esum ts)); [apply term_lim|exact IH].
Qed.
Lemma vanishes ts : vanishes_after (size ts) (esum ts).
Proof.
  remember (size ts) as n eqn:E. revert ts E. induction n as [|n IH]; intros ts E.
  - intros x. induction ts as [|(p, k) ts IH]; [reflexivity|]. rewrite esum_cons. cbn in E. destruct p; [|discriminate]. cbn [fst ev length] in *. rewrite IH by exact E. ring.
  - (* the empty terms in front are dropped *)
    induction ts as [|(p, k) ts IHt]; [discriminate|]. destruct p as [|a p].
    + apply (vanishes_ext _ (esum ts)); [intros x; rewrite esum_cons; cbn; ring|]. apply IHt. exact E.
    + set (rest := map (fun t => (fst t, snd t - k)) ts).
      exists k, (esum ((dcoef (a :: p), 0) :: map (fun t => (dshift (snd t) (fst t), snd t)) rest)). split.
      * intros x. assert (F : forall y, esum ((a :: p, k) :: ts) y * exp (- k * y) = ev (a :: p) y + esum rest y).
        { intros y. rewrite esum_cons. cbn [fst snd]. rewrite Rmult_plus_distr_r, Rmult_assoc, <- exp_plus. replace (k * y + - k * y) with 0 by ring. rewrite exp_0, Rmult_1_r. f_equal.
          unfold rest. clear. induction ts as [|(q, m) ts IH]; [cbn; ring|]. cbn [map]. rewrite !esum_cons. cbn [fst snd]. rewrite Rmult_plus_distr_r, IH, Rmult_assoc, <- exp_plus. do 3 f_equal. ring. }
        assert (G : derivable_pt_lim (fun y => ev (a :: p) y + esum rest y) x (ev (dcoef (a :: p)) x + esum (map (fun t => (dshift (snd t) (fst t), snd t)) rest) x)).
        { apply (derivable_pt_lim_plus (ev (a :: p)) (esum rest)); [apply dcoef_ev|apply esum_lim]. }
        rewrite esum_cons. cbn [fst snd]. replace (0 * x) with 0 by ring. rewrite exp_0, Rmult_1_r.
        intros e He. destruct (G e He) as [d H]. exists d. intros h Hh Hd. rewrite !F. apply H; assumption.
      * apply IH. cbn in E. injection E as E. unfold size in *. cbn [map fold_right fst]. rewrite dcoef_length. cbn [length]. unfold rest. rewrite map_map, map_map. cbn [fst snd].
        rewrite E. replace (S (length p) - 1)%nat with (length p) by lia. f_equal. f_equal. apply map_ext. intros t. symmetry. apply dshift_length.
Qed.
(** as many zeros as there are coefficients: the sum is 0 everywhere *)
Lemma exponential_zeros ts xs : NoDup xs -> (size ts <= length xs)%nat -> (forall x, In x xs -> esum ts x = 0) -> forall x, esum ts x = 0.
Proof. intros N L Z. apply (many_zeros_nodup (size ts) _ xs (vanishes ts) N L Z). Qed.

(* ---------- the asymmetric Lorentzian as a quotient ---------- *)
Definition height (b c : R) : R := 2 * b * c / PI.
Definition below (a b s x : R) : R := 4 * b ^ 2 + (x - a) ^ 2 * (1 + exp (s * (x - a))) ^ 2.
Lemma below_pos a b s x : b <> 0 -> 0 < below a b s x.
Proof. intros Hb. unfold below. assert (0 < b ^ 2) by (apply pow2_gt_0, Hb). assert (Q := pow2_ge_0 ((x - a) * (1 + exp (s * (x - a))))). rewrite Rpow_mult_distr in Q. lra. Qed.
Lemma asymmetric_form a b c d s x : b <> 0 -> asymmetric a b c d s x = height b c * (1 + exp (s * (x - a))) / below a b s x + d.
Proof.
  intros Hb. assert (Q := below_pos a b s x Hb). unfold asymmetric, g_a, height. f_equal. unfold below in *. set (E := exp (s * (x - a))) in *. assert (HE : 0 < E) by apply exp_pos. assert (P := PI_RGT_0).
  assert (D : 0 < 1 + ((x - a) / (2 * b / (1 + E))) ^ 2) by (assert (H := pow2_ge_0 ((x - a) / (2 * b / (1 + E)))); lra).
  assert (F : (2 * b) ^ 2 * (1 + ((x - a) / (2 * b / (1 + E))) ^ 2) = 4 * b ^ 2 + (x - a) ^ 2 * (1 + E) ^ 2) by (field; split; lra).
  rewrite <- F. field. repeat split; try lra; try exact Hb.
  all: intros Z; assert (F' := F); field_simplify in F'; nra.
Qed.

(* ---------- equal at 45 places, equal everywhere ---------- *)
Lemma exp_combine s s' i j x : exp ((INR i * s + INR j * s') * x) = exp (s * x) ^ i * exp (s' * x) ^ j.
Proof.
  assert (G : forall n t, exp (INR n * t * x) = exp (t * x) ^ n).
  { induction n as [|n IH]; intros t; [cbn; replace (0 * t * x) with 0 by ring; apply exp_0|]. rewrite S_INR. replace ((INR n + 1) * t * x) with (t * x + INR n * t * x) by ring. rewrite exp_plus, IH. reflexivity. }
  rewrite Rmult_plus_distr_r, exp_plus, !G. reflexivity.
Qed.
Definition mul5 (u v : R * R * R) : list R :=
  let '(u0, u1, u2) := u in let '(v0, v1, v2) := v in
  (u0 * v0) :: (u0 * v1 + u1 * v0) :: (u0 * v2 + u1 * v1 + u2 * v0) :: (u1 * v2 + u2 * v1) :: (u2 * v2) :: nil.
Definition low (u : R * R * R) : list R := let '(u0, u1, u2) := u in u0 :: u1 :: u2 :: nil.
Definition below_part (a b s : R) (i : nat) : R * R * R :=
  let e := exp (- (s * a)) in
  match i with O => (4 * b ^ 2 + a ^ 2, - 2 * a, 1) | 1%nat => (2 * e * a ^ 2, - 4 * e * a, 2 * e) | _ => (e ^ 2 * a ^ 2, - 2 * e ^ 2 * a, e ^ 2) end.
Definition top_part (h a s : R) (i : nat) : R := match i with O => h | 1%nat => h * exp (- (s * a)) | _ => 0 end.
Definition gap_terms (a b s d h a' b' s' d' h' : R) : list (list R * R) :=
  map (fun p => let '(i, j) := p in
    (padd (map (Rmult (d - d')) (mul5 (below_part a b s i) (below_part a' b' s' j)))
          (padd (map (Rmult (top_part h a s i)) (low (below_part a' b' s' j))) (map (Rmult (- top_part h' a' s' j)) (low (below_part a b s i)))),
     INR i * s + INR j * s')) [(0, 0); (0, 1); (0, 2); (1, 0); (1, 1); (1, 2); (2, 0); (2, 1); (2, 2)]%nat.
Lemma gap_size a b s d h a' b' s' d' h' : size (gap_terms a b s d h a' b' s' d' h') = 45%nat.
Proof. reflexivity. Qed.
Lemma gap_sum a b s d h a' b' s' d' h' x : esum (gap_terms a b s d h a' b' s' d' h') x =
  (d - d') * (below a b s x * below a' b' s' x) + h * (1 + exp (s * (x - a))) * below a' b' s' x - h' * (1 + exp (s' * (x - a'))) * below a b s x.
Proof.
  unfold gap_terms. cbn [map]. unfold esum. cbn [map fold_right fst snd]. rewrite !exp_combine. unfold below.
  replace (s * (x - a)) with (- (s * a) + s * x) by ring. replace (s' * (x - a')) with (- (s' * a') + s' * x) by ring. rewrite !exp_plus.
  unfold below_part, top_part. set (e := exp (- (s * a))). set (e' := exp (- (s' * a'))). set (X := exp (s * x)). set (X' := exp (s' * x)).
  cbn [mul5 low map padd ev pow]. ring.
Qed.
Lemma equal_everywhere xs a b c d s a' b' c' d' s' : NoDup xs -> (45 <= length xs)%nat -> b <> 0 -> b' <> 0 ->
  (forall x, In x xs -> asymmetric a b c d s x = asymmetric a' b' c' d' s' x) -> forall x, asymmetric a b c d s x = asymmetric a' b' c' d' s' x.
Proof.
  intros N L Hb Hb' H. set (h := height b c). set (h' := height b' c').
  assert (K : forall x, esum (gap_terms a b s d h a' b' s' d' h') x = 0 <-> asymmetric a b c d s x = asymmetric a' b' c' d' s' x).
  { intros x. rewrite gap_sum, !asymmetric_form by assumption. fold h h'. assert (Q := below_pos a b s x Hb). assert (Q' := below_pos a' b' s' x Hb').
    set (q := below a b s x) in *. set (q' := below a' b' s' x) in *. set (u := 1 + exp (s * (x - a))). set (u' := 1 + exp (s' * (x - a'))).
    assert (E : (d - d') * (q * q') + h * u * q' - h' * u' * q = (h * u / q + d - (h' * u' / q' + d')) * (q * q')) by (field; lra). rewrite E. split.
    - intros Z. apply Rmult_integral in Z as [Z|Z]; [lra|]. apply Rmult_integral in Z as [Z|Z]; lra.
    - intros Z. rewrite Z. ring. }
  intros x. apply K. apply (exponential_zeros _ xs N); [rewrite gap_size; exact L|]. intros y Hy. apply K, H, Hy.
Qed.

(* ---------- growth ---------- *)
Lemma no_growth p C X0 : (forall x, X0 <= x -> p * x <= C) -> p <= 0.
Proof.
  intros H. destruct (Rle_or_lt p 0) as [|Hp]; [assumption|exfalso]. set (x := Rmax X0 ((Rabs C + 1) / p)). assert (H1 : X0 <= x) by apply Rmax_l. assert (H2 : (Rabs C + 1) / p <= x) by apply Rmax_r.
  specialize (H x H1). assert (H3 : Rabs C + 1 <= p * x). { replace (Rabs C + 1) with (p * ((Rabs C + 1) / p)) by (field; lra). apply Rmult_le_compat_l; lra. } assert (Q := Rle_abs C). lra.
Qed.
Lemma quadratic_bounded p q r C X0 : (forall x, X0 <= x -> Rabs (p * x ^ 2 + q * x + r) <= C) -> p = 0 /\ q = 0.
Proof.
  intros H. assert (P0 : p = 0).
  { assert (G : Rabs p <= 0).
    { apply (no_growth _ (C + Rabs q + Rabs r) (Rmax X0 1)). intros x Hx. assert (H0 := Rmax_l X0 1). assert (H1 := Rmax_r X0 1). specialize (H x ltac:(lra)).
      assert (T : Rabs (p * x ^ 2) <= C + Rabs q * x + Rabs r).
      { replace (p * x ^ 2) with ((p * x ^ 2 + q * x + r) + (- (q * x) + - r)) by ring. eapply Rle_trans; [apply Rabs_triang|]. assert (T2 := Rabs_triang (- (q * x)) (- r)). rewrite !Rabs_Ropp, Rabs_mult, (Rabs_pos_eq x) in T2 by lra. lra. }
      rewrite Rabs_mult, (Rabs_pos_eq (x ^ 2)) in T by apply pow2_ge_0. assert (A1 := Rabs_pos q). assert (A2 := Rabs_pos r). assert (A3 := Rabs_pos p). assert (A4 := Rabs_pos (p * x ^ 2 + q * x + r)).
      apply (Rmult_le_reg_r x); [lra|]. nra. }
    assert (A := Rabs_pos p). destruct (Req_dec p 0) as [|Hn]; [assumption|]. apply Rabs_pos_lt in Hn. lra. }
  split; [exact P0|]. subst p. assert (G : Rabs q <= 0).
  { apply (no_growth _ (C + Rabs r) (Rmax X0 1)). intros x Hx. assert (H0 := Rmax_l X0 1). assert (H1 := Rmax_r X0 1). specialize (H x ltac:(lra)).
    replace (Rabs q * x) with (Rabs (q * x)) by (rewrite Rabs_mult, (Rabs_pos_eq x) by lra; reflexivity).
    replace (q * x) with ((0 * x ^ 2 + q * x + r) + - r) by ring. eapply Rle_trans; [apply Rabs_triang|]. rewrite Rabs_Ropp. lra. }
  assert (A := Rabs_pos q). destruct (Req_dec q 0) as [|Hn]; [assumption|]. apply Rabs_pos_lt in Hn. lra.
Qed.
Lemma quadratic_vanishing p q r C X0 : (forall x, X0 <= x -> Rabs (p * x ^ 2 + q * x + r) * x <= C) -> p = 0 /\ q = 0 /\ r = 0.
Proof.
  intros H. destruct (quadratic_bounded p q r C (Rmax X0 1)) as [-> ->].
  - intros x Hx. assert (H0 := Rmax_l X0 1). assert (H1 := Rmax_r X0 1). specialize (H x ltac:(lra)). assert (A := Rabs_pos (p * x ^ 2 + q * x + r)). nra.
  - repeat split. assert (G : Rabs r <= 0).
    { apply (no_growth _ C X0). intros x Hx. specialize (H x Hx). replace (0 * x ^ 2 + 0 * x + r) with r in H by ring. exact H. }
    assert (A := Rabs_pos r). destruct (Req_dec r 0) as [|Hn]; [assumption|]. apply Rabs_pos_lt in Hn. lra.
Qed.

Definition near_each_other (A a s A' a' s' K : R) : Prop :=
  forall x, Rabs (A * ((x - a) ^ 2 * (1 + exp (s * (x - a)))) - A' * ((x - a') ^ 2 * (1 + exp (s' * (x - a'))))) <= K.
Lemma near_sym A a s A' a' s' K : near_each_other A a s A' a' s' K -> near_each_other A' a' s' A a s K.
Proof. intros H x. rewrite Rabs_minus_sym. apply H. Qed.
Lemma near_mirror A a s A' a' s' K : near_each_other A a s A' a' s' K -> near_each_other A (- a) (- s) A' (- a') (- s') K.
Proof.
  intros H x. specialize (H (- x)). replace (- x - a) with (- (x - - a)) in H by ring. replace (- x - a') with (- (x - - a')) in H by ring.
  replace (s * - (x - - a)) with (- s * (x - - a)) in H by ring. replace (s' * - (x - - a')) with (- s' * (x - - a')) in H by ring.
  replace ((- (x - - a)) ^ 2) with ((x - - a) ^ 2) in H by ring. replace ((- (x - - a')) ^ 2) with ((x - - a') ^ 2) in H by ring. exact H.
Qed.
(** far enough to the right the squares are comparable to x^2 *)
Lemma far a x : 2 * Rabs a + 1 <= x -> 1 <= x /\ x ^ 2 / 4 <= (x - a) ^ 2 <= 4 * x ^ 2.
Proof. intros H. assert (A := Rabs_pos a). assert (B := Rle_abs a). assert (B' := Rle_abs (- a)). rewrite Rabs_Ropp in B'. split; [lra|]. split; nra. Qed.
Lemma rate A a s A' a' s' K : A <> 0 -> near_each_other A a s A' a' s' K -> 0 < s -> s <= s'.
Proof.
  intros HA H Hs. apply Rnot_lt_le. intros Hlt. set (t := Rmax s' 0). assert (Ht0 : 0 <= t) by apply Rmax_r. assert (Ht : s' <= t) by apply Rmax_l. assert (Hts : t < s) by (unfold t; apply Rmax_lub_lt; lra).
  set (e := exp (- (s * a))). set (e' := exp (- (s' * a'))). assert (He : 0 < e) by apply exp_pos. assert (He' : 0 < e') by apply exp_pos. apply Rabs_pos_lt in HA.
  set (C := Rabs K + 4 * Rabs A' * (1 + e')). set (p := Rabs A * e / 4 * (s - t)).
  assert (Hp : 0 < p) by (unfold p; apply Rmult_lt_0_compat; [unfold Rdiv; apply Rmult_lt_0_compat; [apply Rmult_lt_0_compat; lra|lra]|lra]).
  assert (G : p <= 0); [|lra]. apply (no_growth _ C (2 * Rabs a + 1 + (2 * Rabs a' + 1))). intros x Hx. assert (A1 := Rabs_pos a). assert (A2 := Rabs_pos a'). assert (A3 := Rabs_pos A'). assert (A4 := Rle_abs K). assert (A5 := Rabs_pos K).
  destruct (far a x ltac:(lra)) as [X1 [Y1 _]]. destruct (far a' x ltac:(lra)) as [_ [Z1 Z2]]. specialize (H x).
  assert (E : exp (s * (x - a)) = e * exp (s * x)) by (unfold e; rewrite <- exp_plus; f_equal; ring).
  assert (E' : exp (s' * (x - a')) = e' * exp (s' * x)) by (unfold e'; rewrite <- exp_plus; f_equal; ring). rewrite E, E' in H.
  set (W := exp (t * x)). set (V := exp ((s - t) * x)). assert (EW : exp (s * x) = W * V) by (unfold W, V; rewrite <- exp_plus; f_equal; ring).
  assert (W1 : 1 <= W). { unfold W. rewrite <- exp_0. destruct (Rle_lt_or_eq_dec 0 (t * x)) as [Q|Q]; [nra|left; apply exp_increasing, Q|rewrite <- Q; right; reflexivity]. }
  assert (W2 : exp (s' * x) <= W). { unfold W. destruct (Rle_lt_or_eq_dec s' t Ht) as [Q|Q]; [left; apply exp_increasing; nra|rewrite Q; right; reflexivity]. }
  assert (V1 : (s - t) * x <= V). { unfold V. assert (Q := exp_ineq1_le ((s - t) * x)). lra. }
  assert (V0 : 0 < V) by apply exp_pos. rewrite EW in H. assert (Es' : 0 < exp (s' * x)) by apply exp_pos. set (F := exp (s' * x)) in *.
  set (y := (x - a) ^ 2) in *. set (y' := (x - a') ^ 2) in *. set (xx := x ^ 2) in *. assert (XX : 1 <= xx) by (unfold xx; nra).
  assert (T : Rabs A * (y * (1 + e * (W * V))) <= K + Rabs A' * (y' * (1 + e' * F))).
  { assert (0 < e * (W * V)) by (repeat apply Rmult_lt_0_compat; lra). assert (0 < e' * F) by (apply Rmult_lt_0_compat; lra).
    replace (Rabs A * (y * (1 + e * (W * V)))) with (Rabs (A * (y * (1 + e * (W * V))))) by (rewrite Rabs_mult; f_equal; apply Rabs_pos_eq; apply Rmult_le_pos; lra).
    replace (Rabs A' * (y' * (1 + e' * F))) with (Rabs (A' * (y' * (1 + e' * F)))) by (rewrite Rabs_mult; f_equal; apply Rabs_pos_eq; apply Rmult_le_pos; lra).
    assert (Q := Rabs_triang (A * (y * (1 + e * (W * V))) - A' * (y' * (1 + e' * F))) (A' * (y' * (1 + e' * F)))). replace (A * (y * (1 + e * (W * V))) - A' * (y' * (1 + e' * F)) + A' * (y' * (1 + e' * F))) with (A * (y * (1 + e * (W * V)))) in Q by ring. lra. }
  (* lower bound of the left, upper bound of the right *)
  assert (T1 : Rabs A * e / 4 * V * (xx * W) <= Rabs A * (y * (1 + e * (W * V)))).
  { replace (Rabs A * e / 4 * V * (xx * W)) with (Rabs A * (xx / 4 * (e * (W * V)))) by field. apply Rmult_le_compat_l; [lra|]. assert (0 < e * (W * V)) by (repeat apply Rmult_lt_0_compat; lra).
    apply Rmult_le_compat; lra. }
  assert (T2 : K + Rabs A' * (y' * (1 + e' * F)) <= C * (xx * W)).
  { unfold C. assert (U : y' * (1 + e' * F) <= 4 * xx * ((1 + e') * W)). { apply Rmult_le_compat; try lra; try (assert (0 < e' * F) by (apply Rmult_lt_0_compat; lra); lra). assert (e' * F <= e' * W) by (apply Rmult_le_compat_l; lra). lra. }
    assert (U2 : Rabs A' * (y' * (1 + e' * F)) <= Rabs A' * (4 * xx * ((1 + e') * W))) by (apply Rmult_le_compat_l; lra).
    assert (U3 : 1 <= xx * W). { replace 1 with (1 * 1) by ring. apply Rmult_le_compat; lra. } assert (U4 : Rabs K * 1 <= Rabs K * (xx * W)) by (apply Rmult_le_compat_l; lra). lra. }
  assert (XW : 0 < xx * W) by (apply Rmult_lt_0_compat; lra). assert (T3 : Rabs A * e / 4 * V <= C) by (apply (Rmult_le_reg_r (xx * W)); [exact XW|lra]).
  unfold p. rewrite Rmult_assoc. eapply Rle_trans; [|exact T3]. apply Rmult_le_compat_l; [|exact V1]. unfold Rdiv. apply Rmult_le_pos; [apply Rmult_le_pos; lra|lra].
Qed.
Lemma same_rate A a s A' a' s' K : A <> 0 -> A' <> 0 -> near_each_other A a s A' a' s' K -> s' = s.
Proof.
  intros HA HA' H. assert (R1 := rate A a s A' a' s' K HA H). assert (R2 := rate A' a' s' A a s K HA' (near_sym _ _ _ _ _ _ _ H)).
  assert (R3 := rate A (- a) (- s) A' (- a') (- s') K HA (near_mirror _ _ _ _ _ _ _ H)). assert (R4 := rate A' (- a') (- s') A (- a) (- s) K HA' (near_sym _ _ _ _ _ _ _ (near_mirror _ _ _ _ _ _ _ H))).
  destruct (Rtotal_order s 0) as [Q|[Q|Q]]; destruct (Rtotal_order s' 0) as [Q'|[Q'|Q']]; try lra;
    repeat match goal with R : 0 < ?t -> _ |- _ => first [specialize (R ltac:(lra)) | clear R] end; lra.
Qed.
Lemma same_place_right A a A' a' s K : A <> 0 -> 0 <= s -> near_each_other A a s A' a' s K -> A' = A /\ a' = a.
Proof.
  intros HA Hs H. destruct (Rle_lt_or_eq_dec 0 s Hs) as [Hp|<-].
  - set (e := exp (- (s * a))). set (e' := exp (- (s * a'))). assert (He : 0 < e) by apply exp_pos. assert (He' : 0 < e') by apply exp_pos. set (C := Rabs K + 4 * Rabs A + 4 * Rabs A').
    destruct (quadratic_vanishing (A * e - A' * e') (-2 * (A * e * a - A' * e' * a')) (A * e * a ^ 2 - A' * e' * a' ^ 2) (C * 27 / s ^ 3) (2 * Rabs a + 1 + (2 * Rabs a' + 1))) as (P2 & P1 & _).
    + intros x Hx. assert (A1 := Rabs_pos a). assert (A2 := Rabs_pos a'). destruct (far a x ltac:(lra)) as [X1 [_ Y1]]. destruct (far a' x ltac:(lra)) as [_ [_ Z1]]. specialize (H x).
      replace (exp (s * (x - a))) with (e * exp (s * x)) in H by (unfold e; rewrite <- exp_plus; f_equal; ring). replace (exp (s * (x - a'))) with (e' * exp (s * x)) in H by (unfold e'; rewrite <- exp_plus; f_equal; ring).
      set (V := exp (s * x)) in *. set (P := (A * e - A' * e') * x ^ 2 + -2 * (A * e * a - A' * e' * a') * x + (A * e * a ^ 2 - A' * e' * a' ^ 2)).
      assert (V0 : 0 < V) by apply exp_pos.
      assert (V3 : (s * x / 3) ^ 3 <= V).
      { unfold V. replace (s * x) with (s * x / 3 + (s * x / 3 + s * x / 3)) at 2 by field. rewrite !exp_plus. assert (Q := exp_ineq1_le (s * x / 3)). assert (Q0 : 0 <= s * x / 3) by (unfold Rdiv; apply Rmult_le_pos; [apply Rmult_le_pos; lra|lra]).
        set (z := s * x / 3) in *. set (v := exp z) in *. replace (z ^ 3) with (z * (z * z)) by ring. apply Rmult_le_compat; try lra; [apply Rmult_le_pos; lra|apply Rmult_le_compat; lra]. }
      assert (T : Rabs P * V <= C * x ^ 2).
      { replace (Rabs P * V) with (Rabs (P * V)) by (rewrite Rabs_mult, (Rabs_pos_eq V) by lra; reflexivity).
        replace (P * V) with ((A * ((x - a) ^ 2 * (1 + e * V)) - A' * ((x - a') ^ 2 * (1 + e' * V))) + (- (A * (x - a) ^ 2) + A' * (x - a') ^ 2)) by (unfold P; ring).
        eapply Rle_trans; [apply Rabs_triang|]. assert (Q := Rabs_triang (- (A * (x - a) ^ 2)) (A' * (x - a') ^ 2)). rewrite Rabs_Ropp, !Rabs_mult, (Rabs_pos_eq ((x - a) ^ 2)), (Rabs_pos_eq ((x - a') ^ 2)) in Q by apply pow2_ge_0.
        assert (U1 : Rabs A * (x - a) ^ 2 <= Rabs A * (4 * x ^ 2)) by (apply Rmult_le_compat_l; [apply Rabs_pos|exact Y1]). assert (U2 : Rabs A' * (x - a') ^ 2 <= Rabs A' * (4 * x ^ 2)) by (apply Rmult_le_compat_l; [apply Rabs_pos|exact Z1]).
        assert (U3 : K <= Rabs K * x ^ 2). { assert (B := Rle_abs K). assert (B0 := Rabs_pos K). assert (1 <= x ^ 2) by nra. nra. } unfold C. lra. }
      assert (T2 : Rabs P * (s * x / 3) ^ 3 <= C * x ^ 2) by (eapply Rle_trans; [apply Rmult_le_compat_l; [apply Rabs_pos|exact V3]|exact T]).
      assert (S3 : 0 < s ^ 3) by (apply pow_lt, Hp). assert (X2 : 0 < x ^ 2) by nra.
      apply (Rmult_le_reg_r (s ^ 3 * x ^ 2 / 27)); [unfold Rdiv; apply Rmult_lt_0_compat; [apply Rmult_lt_0_compat; assumption|lra]|].
      replace (Rabs P * x * (s ^ 3 * x ^ 2 / 27)) with (Rabs P * (s * x / 3) ^ 3) by field. replace (C * 27 / s ^ 3 * (s ^ 3 * x ^ 2 / 27)) with (C * x ^ 2) by (field; lra). exact T2.
    + assert (E1 : A' * e' = A * e) by lra. assert (NZ : A * e <> 0) by (apply Rmult_integral_contrapositive_currified; lra).
      assert (E2 : a' = a). { apply (Rmult_eq_reg_l (A * e)); [|exact NZ]. rewrite <- E1 at 1. lra. }
      split; [|exact E2]. assert (E3 : e' = e) by (unfold e, e'; rewrite E2; reflexivity). rewrite E3 in E1. apply (Rmult_eq_reg_r e); lra.
  - destruct (quadratic_bounded (2 * (A - A')) (-4 * (A * a - A' * a')) (2 * (A * a ^ 2 - A' * a' ^ 2)) K 0) as (P2 & P1).
    + intros x _. specialize (H x). rewrite !Rmult_0_l, exp_0 in H. replace (2 * (A - A') * x ^ 2 + -4 * (A * a - A' * a') * x + 2 * (A * a ^ 2 - A' * a' ^ 2)) with (A * ((x - a) ^ 2 * (1 + 1)) - A' * ((x - a') ^ 2 * (1 + 1))) by ring. exact H.
    + assert (E1 : A' = A) by lra. subst A'. split; [reflexivity|]. apply (Rmult_eq_reg_l A); lra.
Qed.
Lemma same_place A a A' a' s K : A <> 0 -> near_each_other A a s A' a' s K -> A' = A /\ a' = a.
Proof.
  intros HA H. destruct (Rle_or_lt 0 s) as [Hs|Hs]; [apply (same_place_right A a A' a' s K HA Hs H)|].
  destruct (same_place_right A (- a) A' (- a') (- s) K HA ltac:(lra) (near_mirror _ _ _ _ _ _ _ H)) as [E1 E2]. split; [exact E1|lra].
Qed.

(** two asymmetric Lorentzians that are the same curve have the same coefficients, up to the common sign of width and area *)
Lemma same_curve a b c d s a' b' c' d' s' : b <> 0 -> b' <> 0 -> c <> 0 -> (forall x, asymmetric a b c d s x = asymmetric a' b' c' d' s' x) ->
  a' = a /\ d' = d /\ s' = s /\ (b' = b /\ c' = c \/ b' = - b /\ c' = - c).
Proof.
  intros Hb Hb' Hc H. assert (PP := PI_RGT_0). set (h := height b c). set (h' := height b' c').
  assert (Hh : h <> 0) by (unfold h, height, Rdiv; repeat apply Rmult_integral_contrapositive_currified; try assumption; try lra; apply Rinv_neq_0_compat; lra).
  assert (F : forall x, h * (1 + exp (s * (x - a))) / below a b s x + d = h' * (1 + exp (s' * (x - a'))) / below a' b' s' x + d').
  { intros x. specialize (H x). rewrite !asymmetric_form in H by assumption. exact H. }
  (* base lines *)
  assert (Small : forall h a b s x, b <> 0 -> 2 * Rabs a + 1 <= x -> Rabs (h * (1 + exp (s * (x - a))) / below a b s x) * x <= 4 * Rabs h).
  { clear. intros h a b s x Hb Hx. destruct (far a x Hx) as [X1 [Y1 _]]. assert (Q := below_pos a b s x Hb). assert (E := exp_pos (s * (x - a))). set (u := 1 + exp (s * (x - a))) in *. assert (U : 1 <= u) by (unfold u; lra).
    unfold Rdiv. rewrite !Rabs_mult, (Rabs_pos_eq u), (Rabs_pos_eq (/ _)) by (try lra; left; apply Rinv_0_lt_compat; exact Q). assert (A := Rabs_pos h).
    replace (Rabs h * u * / below a b s x * x) with (Rabs h * (u * x * / below a b s x)) by ring. replace (4 * Rabs h) with (Rabs h * 4) by ring. apply Rmult_le_compat_l; [exact A|].
    apply (Rmult_le_reg_r (below a b s x)); [exact Q|]. rewrite Rmult_assoc, Rinv_l, Rmult_1_r by lra. unfold below. fold u. assert (B := pow2_ge_0 b).
    assert (G : u * x <= 4 * ((x - a) ^ 2 * u ^ 2)); [|nra].
    apply Rle_trans with (u ^ 2 * x ^ 2); [|assert (0 <= u ^ 2) by apply pow2_ge_0; nra]. replace (u ^ 2 * x ^ 2) with ((u * x) * (u * x)) by ring. assert (1 <= u * x) by (replace 1 with (1 * 1) by ring; apply Rmult_le_compat; lra). nra. }
  assert (D : d' = d).
  { assert (G : Rabs (d - d') <= 0).
    { apply (no_growth _ (4 * Rabs h + 4 * Rabs h') (2 * Rabs a + 1 + (2 * Rabs a' + 1))). intros x Hx. assert (A1 := Rabs_pos a). assert (A2 := Rabs_pos a').
      assert (S1 := Small h a b s x Hb ltac:(lra)). assert (S2 := Small h' a' b' s' x Hb' ltac:(lra)). specialize (F x).
      set (f := h * (1 + exp (s * (x - a))) / below a b s x) in *. set (f' := h' * (1 + exp (s' * (x - a'))) / below a' b' s' x) in *. replace (d - d') with (f' + - f) by lra.
      assert (T := Rabs_triang f' (- f)). rewrite Rabs_Ropp in T. apply Rle_trans with ((Rabs f' + Rabs f) * x); [apply Rmult_le_compat_r; lra|lra]. }
    assert (A := Rabs_pos (d - d')). destruct (Req_dec (d - d') 0) as [|Hn]; [lra|]. apply Rabs_pos_lt in Hn. lra. }
  subst d'.
  (* quotients *)
  assert (F2 : forall x, h * (1 + exp (s * (x - a))) * below a' b' s' x = h' * (1 + exp (s' * (x - a'))) * below a b s x).
  { intros x. specialize (F x). assert (Q := below_pos a b s x Hb). assert (Q' := below_pos a' b' s' x Hb'). set (q := below a b s x) in *. set (q' := below a' b' s' x) in *.
    set (u := h * (1 + exp (s * (x - a)))) in *. set (u' := h' * (1 + exp (s' * (x - a')))) in *. assert (E : u / q = u' / q') by lra.
    replace (u * q') with (u / q * (q * q')) by (field; lra). rewrite E. field. lra. }
  assert (Hh' : h' <> 0).
  { intros Z. specialize (F2 a). rewrite Z, !Rmult_0_l in F2. assert (Q' := below_pos a' b' s' a Hb'). assert (E := exp_pos (s * (a - a))).
    apply Rmult_integral in F2 as [F2|F2]; [|lra]. apply Rmult_integral in F2 as [F2|F2]; [contradiction|lra]. }
  assert (Near : near_each_other h' a s h a' s' (4 * b' ^ 2 * Rabs h + 4 * b ^ 2 * Rabs h')).
  { intros x. specialize (F2 x). unfold below in F2. assert (E := exp_pos (s * (x - a))). assert (E' := exp_pos (s' * (x - a'))). set (u := 1 + exp (s * (x - a))) in *. set (u' := 1 + exp (s' * (x - a'))) in *.
    assert (U : 1 < u) by (unfold u; lra). assert (U' : 1 < u') by (unfold u'; lra).
    assert (G : h' * ((x - a) ^ 2 * u) - h * ((x - a') ^ 2 * u') = 4 * b' ^ 2 * h * / u' + - (4 * b ^ 2 * h' * / u)).
    { apply (Rmult_eq_reg_r (u * u')); [|apply Rmult_integral_contrapositive_currified; lra].
      replace ((4 * b' ^ 2 * h * / u' + - (4 * b ^ 2 * h' * / u)) * (u * u')) with (4 * b' ^ 2 * h * u - 4 * b ^ 2 * h' * u') by (field; lra). lra. }
    rewrite G. eapply Rle_trans; [apply Rabs_triang|]. rewrite Rabs_Ropp. assert (I : / u < 1) by (rewrite <- Rinv_1; apply Rinv_lt_contravar; lra). assert (I' : / u' < 1) by (rewrite <- Rinv_1; apply Rinv_lt_contravar; lra).
    assert (J : 0 < / u) by (apply Rinv_0_lt_compat; lra). assert (J' : 0 < / u') by (apply Rinv_0_lt_compat; lra).
    rewrite !Rabs_mult, (Rabs_pos_eq (/ u)), (Rabs_pos_eq (/ u')), (Rabs_pos_eq 4), (Rabs_pos_eq (b ^ 2)), (Rabs_pos_eq (b' ^ 2)) by (try lra; apply pow2_ge_0).
    assert (B := pow2_ge_0 b). assert (B' := pow2_ge_0 b'). assert (A1 := Rabs_pos h). assert (A2 := Rabs_pos h').
    assert (T1 : 4 * b' ^ 2 * Rabs h * / u' <= 4 * b' ^ 2 * Rabs h * 1) by (apply Rmult_le_compat_l; [apply Rmult_le_pos; lra|lra]).
    assert (T2 : 4 * b ^ 2 * Rabs h' * / u <= 4 * b ^ 2 * Rabs h' * 1) by (apply Rmult_le_compat_l; [apply Rmult_le_pos; lra|lra]). lra. }
  assert (S : s' = s) by (apply (same_rate _ _ _ _ _ _ _ Hh' Hh Near)). subst s'. destruct (same_place _ _ _ _ _ _ Hh' Near) as [E1 E2]. subst a'.
  split; [reflexivity|]. split; [reflexivity|]. split; [reflexivity|].
  specialize (F2 a). unfold below in F2. replace (a - a) with 0 in F2 by ring. rewrite Rmult_0_r, exp_0 in F2. rewrite <- E1 in F2.
  assert (B2 : b' ^ 2 = b ^ 2). { apply (Rmult_eq_reg_l (h * 8)); [lra|]. apply Rmult_integral_contrapositive_currified; lra. }
  assert (E3 : b * c = b' * c'). { unfold h, h', height in E1. assert (Q : 2 * b * c = 2 * b' * c'); [|lra]. apply (Rmult_eq_reg_r (/ PI)); [exact E1|apply Rinv_neq_0_compat; lra]. }
  assert (B3 : (b' - b) * (b' + b) = 0) by lra. apply Rmult_integral in B3 as [B3|B3].
  - left. assert (b' = b) by lra. subst b'. split; [reflexivity|]. apply (Rmult_eq_reg_l b); [lra|exact Hb].
  - right. assert (b' = - b) by lra. subst b'. split; [reflexivity|]. apply (Rmult_eq_reg_l b); [lra|exact Hb].
Qed.
