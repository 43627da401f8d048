(** C137: a displacement distribution that is exactly a Gaussian on a base line is recovered by the fit. *)
From Coq Require Import Reals List Sorted Lra Lia.
From Verif Require Import FitFunctionsModel GaussianModel ExactFitProps AsymmetricFitProofs.
Import ListNotations.
Open Scope R_scope.

Ltac norm_exp u0 :=
  repeat match goal with |- context [exp ?u] => assert_fails (constr_eq u u0); replace (exp u) with (exp u0) by (f_equal; ring) end; generalize (exp u0).
Lemma lim_ext f g x l : (forall y, f y = g y) -> derivable_pt_lim f x l -> derivable_pt_lim g x l.
Proof. intros E H e He. destruct (H e He) as [d D]. exists d. intros h Hh Hd. rewrite <- !E. apply D; assumption. Qed.
(** two bells -p (x-a)^2 with different centre or width and a base line: fewer than 7 common points *)
Lemma bells xs K p a K' p' a' e : Sorted Rlt xs -> (7 <= length xs)%nat -> K <> 0 -> 0 < p -> 0 < p' ->
  (forall x, In x xs -> K * exp (- p * (x - a) ^ 2) - K' * exp (- p' * (x - a') ^ 2) + e = 0) -> p' = p /\ a' = a.
Proof.
  intros S L HK Hp Hp' Z. set (al := 2 * (p' - p)). set (be := 2 * (p * a - p' * a')).
  assert (Step : forall h g (l : list R) n, (n + 1 <= length l)%nat -> (forall x, derivable_pt_lim h x (g x)) -> Sorted Rlt l -> (forall y, In y l -> h y = 0) -> exists l', Sorted Rlt l' /\ (n <= length l')%nat /\ forall y, In y l' -> g y = 0).
  { intros h g [|x l] n Hn D Sl Zl; [cbn in Hn; lia|]. destruct (rolle h g x l D Sl Zl) as (l' & A & B & _ & C). exists l'. split; [exact A|]. split; [cbn in Hn; lia|exact C]. }
  (* first: times exp (p' (x-a')^2) *)
  set (h0 := fun x => K * exp (- p * (x - a) ^ 2 + p' * (x - a') ^ 2) - K' + e * exp (p' * (x - a') ^ 2)).
  set (g0 := fun x => K * (al * x + be) * exp (- p * (x - a) ^ 2 + p' * (x - a') ^ 2) + e * (2 * p' * (x - a')) * exp (p' * (x - a') ^ 2)).
  destruct (Step h0 g0 xs 6%nat L) as (l1 & S1 & L1 & Z1); [|exact S| |].
  { intros x. apply is_derive_Reals. unfold h0, g0. auto_derive; [exact I|]. unfold al, be. norm_exp (- p * (x - a) ^ 2 + p' * (x - a') ^ 2). norm_exp (p' * (x - a') ^ 2). intros; ring. }
  { intros y Hy. specialize (Z y Hy). unfold h0. rewrite exp_plus. replace (K * (exp (- p * (y - a) ^ 2) * exp (p' * (y - a') ^ 2)) - K' + e * exp (p' * (y - a') ^ 2)) with
      ((K * exp (- p * (y - a) ^ 2) - K' * exp (- p' * (y - a') ^ 2) + e) * exp (p' * (y - a') ^ 2) + K' * (exp (- p' * (y - a') ^ 2) * exp (p' * (y - a') ^ 2) - 1)) by ring.
    rewrite Z, <- exp_plus. replace (- p' * (y - a') ^ 2 + p' * (y - a') ^ 2) with 0 by ring. rewrite exp_0. ring. }
  (* then: divided by it, differentiated twice *)
  set (h1 := fun x => K * (al * x + be) * exp (- p * (x - a) ^ 2) + e * (2 * p' * (x - a'))).
  set (r1 := fun x => al - 2 * p * (al * x + be) * (x - a)).
  set (g1 := fun x => K * r1 x * exp (- p * (x - a) ^ 2) + e * (2 * p')).
  destruct (Step h1 g1 l1 5%nat L1) as (l2 & S2 & L2 & Z2); [|exact S1| |].
  { intros x. apply is_derive_Reals. unfold h1, g1, r1. auto_derive; [exact I|]. norm_exp (- p * (x - a) ^ 2). intros; ring. }
  { intros y Hy. specialize (Z1 y Hy). unfold g0 in Z1. rewrite exp_plus in Z1. assert (P := exp_pos (p' * (y - a') ^ 2)). set (W := exp (p' * (y - a') ^ 2)) in *.
    apply (Rmult_eq_reg_r W); [|lra]. rewrite Rmult_0_l, <- Z1. unfold h1. ring. }
  set (r2 := fun x => - 2 * p * (al * (x - a) + (al * x + be)) - 2 * p * (x - a) * r1 x).
  destruct (Step g1 (fun x => K * r2 x * exp (- p * (x - a) ^ 2)) l2 4%nat L2) as (l3 & S3 & L3 & Z3); [|exact S2|exact Z2|].
  { intros x. apply is_derive_Reals. unfold g1, r2, r1. auto_derive; [exact I|]. norm_exp (- p * (x - a) ^ 2). intros; ring. }
  (* a cubic with four zeros *)
  set (c := [-2 * p * (be - al * a) + 2 * p * a * (al + 2 * p * be * a); -4 * p * al - 2 * p * (al + 2 * p * be * a) + 2 * p * a * (2 * p * (al * a - be)); -2 * p * (2 * p * (al * a - be)) - 4 * p * p * a * al; 4 * p * p * al]).
  assert (F : List.Forall (fun z => z = 0) c).
  { apply (many_roots l3); [|exact L3|].
    - clear - S3. induction S3 as [|x l Sl IH Hd]; constructor; [|exact IH]. intros Hx. assert (G : forall l (z : R), HdRel Rlt z l -> Sorted Rlt l -> In x l -> z < x).
      { clear. induction l as [|y l IH]; intros z Hd Sl Hx; [destruct Hx|]. inversion Hd; subst. inversion Sl; subst. destruct Hx as [->|Hx]; [assumption|]. assert (y < x) by (apply IH; assumption). lra. }
      specialize (G l x Hd Sl Hx). lra.
    - intros x Hx. specialize (Z3 x Hx). apply Rmult_integral in Z3 as [Z3|Z3]; [|assert (P := exp_pos (- p * (x - a) ^ 2)); lra]. apply Rmult_integral in Z3 as [Z3|Z3]; [contradiction|].
      rewrite <- Z3. unfold c, r2, r1. cbn [ev]. ring. }
  unfold c in F. inversion F as [|? ? F0 F1]; subst. inversion F1 as [|? ? _ F2]; subst. inversion F2 as [|? ? F3 F4]; subst. inversion F4 as [|? ? F5 _]; subst.
  assert (PP : 0 < p * p) by (apply Rmult_lt_0_compat; assumption).
  assert (A0 : al = 0). { apply (Rmult_eq_reg_l (4 * p * p)); lra. } rewrite A0 in F3.
  assert (B0 : be = 0). { apply (Rmult_eq_reg_l (4 * p * p)); lra. }
  unfold al in A0. assert (E : p' = p) by lra. split; [exact E|]. unfold be in B0. rewrite E in B0. apply (Rmult_eq_reg_l p); lra.
Qed.
Lemma gaussian_same xs a b c d a' b' c' d' : NoDup xs -> (7 <= length xs)%nat -> 0 < b -> b' <> 0 -> c <> 0 ->
  (forall x, In x xs -> gaussian a b c d x = gaussian a' b' c' d' x) -> a' = a /\ d' = d /\ (b' = b /\ c' = c \/ b' = - b /\ c' = - c).
Proof.
  intros N L Hb Hb' Hc H. destruct (sort_exists xs N) as (l & S & L' & I). set (t := sqrt (2 * PI)). assert (Ht : 0 < t) by (apply sqrt_lt_R0; assert (P := PI_RGT_0); lra).
  assert (Hb2 : 0 < b ^ 2) by (apply pow2_gt_0; lra). assert (Hb2' : 0 < b' ^ 2) by (apply pow2_gt_0; exact Hb').
  assert (G : forall a b c d x, b <> 0 -> gaussian a b c d x = c / b * t * exp (- (1 / (2 * b ^ 2)) * (x - a) ^ 2) + d).
  { intros. unfold gaussian. fold t. do 3 f_equal. field. assumption. }
  set (K := c / b * t). set (K' := c' / b' * t). assert (HK : K <> 0) by (unfold K, Rdiv; repeat apply Rmult_integral_contrapositive_currified; try lra; apply Rinv_neq_0_compat; lra).
  assert (Z : forall x, In x l -> K * exp (- (1 / (2 * b ^ 2)) * (x - a) ^ 2) - K' * exp (- (1 / (2 * b' ^ 2)) * (x - a') ^ 2) + (d - d') = 0).
  { intros x Hx. specialize (H x (I x Hx)). rewrite !G in H by lra. fold K K' in H. lra. }
  assert (Pos : forall z, 0 < z -> 0 < 1 / (2 * z)) by (intros z Hz; unfold Rdiv; rewrite Rmult_1_l; apply Rinv_0_lt_compat; lra).
  destruct (bells l K _ a K' _ a' (d - d') S ltac:(lia) HK (Pos _ Hb2) (Pos _ Hb2') Z) as [E1 E2]. subst a'. split; [reflexivity|].
  assert (B2 : b' ^ 2 = b ^ 2). { assert (E3 : / (1 / (2 * b' ^ 2)) = / (1 / (2 * b ^ 2))) by (rewrite E1; reflexivity). replace (/ (1 / (2 * b' ^ 2))) with (2 * b' ^ 2) in E3 by (field; lra). replace (/ (1 / (2 * b ^ 2))) with (2 * b ^ 2) in E3 by (field; lra). lra. }
  rewrite E1 in Z. set (p := 1 / (2 * b ^ 2)) in *. assert (Hp : 0 < p) by (apply Pos, Hb2).
  (* two of the first three abscissas have different squares *)
  destruct l as [|x1 [|x2 [|x3 l]]]; try (cbn in L'; lia).
  assert (X12 : x1 < x2) by (inversion S as [|? ? ? Q]; inversion Q; assumption). assert (X23 : x2 < x3) by (inversion S as [|? ? S' _]; inversion S' as [|? ? ? Q]; inversion Q; assumption).
  assert (Z1 := Z x1 ltac:(cbn; auto)). assert (Z2 := Z x2 ltac:(cbn; auto)). assert (Z3 := Z x3 ltac:(cbn; auto)).
  assert (D : exists u v, u <> v /\ (K - K') * exp u + (d - d') = 0 /\ (K - K') * exp v + (d - d') = 0).
  { destruct (Req_dec ((x1 - a) ^ 2) ((x2 - a) ^ 2)) as [Q|Q].
    - exists (- p * (x2 - a) ^ 2), (- p * (x3 - a) ^ 2). split; [|split; lra]. intros E. assert (Q2 : (x2 - a) ^ 2 = (x3 - a) ^ 2) by (apply (Rmult_eq_reg_l (- p)); lra).
      assert (Q3 : (x2 - x1) * (x1 + x2 - 2 * a) = 0) by lra. assert (Q4 : (x3 - x2) * (x2 + x3 - 2 * a) = 0) by lra. apply Rmult_integral in Q3 as [Q3|Q3]; apply Rmult_integral in Q4 as [Q4|Q4]; lra.
    - exists (- p * (x1 - a) ^ 2), (- p * (x2 - a) ^ 2). split; [|split; lra]. intros E. apply Q. apply (Rmult_eq_reg_l (- p)); lra. }
  destruct D as (u & v & Huv & U & V). assert (KK : (K - K') * (exp u - exp v) = 0) by lra. apply Rmult_integral in KK as [KK|KK]; [|exfalso; apply Huv, exp_inv; lra].
  rewrite KK in U. split; [lra|]. assert (E4 : c / b = c' / b') by (apply (Rmult_eq_reg_r t); [unfold K, K' in KK; lra|lra]).
  assert (B3 : (b' - b) * (b' + b) = 0) by lra. apply Rmult_integral in B3 as [B3|B3].
  - left. assert (b' = b) by lra. subst b'. split; [reflexivity|]. apply (Rmult_eq_reg_r (/ b)); [exact (eq_sym E4)|apply Rinv_neq_0_compat; lra].
  - right. assert (b' = - b) by lra. subst b'. split; [reflexivity|]. replace c' with (c' / - b * - b) by (field; lra). rewrite <- E4. field. lra.
Qed.

(** Every least-squares solution of an exactly Gaussian distribution sampled at seven or more different displacements is the true curve everywhere;
    what is reported, and what is printed as mean and deviation, are the true values. *)
Theorem C137_gaussian : forall xs a b c d a' b' c' d', NoDup xs -> (7 <= length xs)%nat -> 0 < b -> c <> 0 ->
  least_squares gaussian xs (map (gaussian a b c d) xs) a' b' c' d' ->
  (forall x, gaussian a' b' c' d' x = gaussian a b c d x) /\
  (forall xmax err, gaussian_fitting a' b' c' d' xmax err = gaussian_fitting a b c d xmax err) /\
  forall xmax err mean deviation error, printed_fit (gaussian_fitting a' b' c' d' xmax err) = Some (mean, deviation, error) -> mean = a /\ deviation = b.
Proof.
  intros xs a b c d a' b' c' d' N L Hb Hc (Hb' & M).
  assert (Z : residual (gaussian a' b' c' d') xs (map (gaussian a b c d) xs) <= 0) by (apply Rle_trans with (residual (gaussian a b c d) xs (map (gaussian a b c d) xs)); [apply M; lra|rewrite residual_self; lra]).
  destruct (gaussian_same xs a b c d a' b' c' d' N L Hb Hb' Hc (residual_zero _ _ xs Z)) as (-> & -> & S).
  assert (E : forall x, gaussian a b' c' d x = gaussian a b c d x).
  { intros x. destruct S as [[-> ->]|[-> ->]]; [reflexivity|]. unfold gaussian. replace (- c / - b) with (c / b) by (field; lra). replace ((- b) ^ 2) with (b ^ 2) by ring. reflexivity. }
  assert (W : Rabs b' = Rabs b) by (destruct S as [[-> _]|[-> _]]; [reflexivity|apply Rabs_Ropp]).
  assert (F : forall xmax err, gaussian_fitting a b' c' d xmax err = gaussian_fitting a b c d xmax err).
  { intros xmax err. unfold gaussian_fitting. rewrite E, W, (RInt_ext (gaussian a b' c' d) (gaussian a b c d) 0 xmax (fun x _ => E x)). reflexivity. }
  split; [exact E|]. split; [exact F|]. intros xmax err mean deviation error Q. rewrite F in Q. unfold printed_fit, gaussian_fitting, finish in Q. destruct (isnan _); [discriminate|]. injection Q as <- <- _.
  cbn [r_position r_width]. split; [reflexivity|]. apply Rabs_pos_eq. lra.
Qed.
(** the true values are a solution *)
Theorem C137_exists : forall xs a b c d, 0 < b -> least_squares gaussian xs (map (gaussian a b c d) xs) a b c d.
Proof. intros xs a b c d Hb. split; [lra|]. intros a' b' c' d' _. rewrite residual_self. apply residual_nonneg. Qed.
(** three samples are not enough: at three different displacements two different Gaussians can agree *)
Theorem C137_three_samples_refuted : forall b c, 0 < b -> 0 < c -> exists a' b' c' d', 0 < b' /\ b' <> b /\
  forall x, In x [- b; 0; b] -> gaussian 0 b c 0 x = gaussian a' b' c' d' x.
Proof.
  intros b c Hb Hc. exists 0, (2 * b). set (u := exp (- (1 / 2))). set (v := exp (- (1 / 8))).
  assert (Hv : v <> 1) by (unfold v; intros E; assert (E2 : exp (- (1 / 8)) = exp 0) by (rewrite exp_0; exact E); apply exp_inv in E2; lra).
  exists (2 * c * (1 - u) / (1 - v)), (c / b * sqrt (2 * PI) * (1 - (1 - u) / (1 - v))). split; [lra|]. split; [lra|].
  assert (E : forall x, x ^ 2 = b ^ 2 -> gaussian 0 b c 0 x = gaussian 0 (2 * b) (2 * c * (1 - u) / (1 - v)) (c / b * sqrt (2 * PI) * (1 - (1 - u) / (1 - v))) x).
  { intros x Hx. unfold gaussian. rewrite Rminus_0_r, Hx. replace (- b ^ 2 / (2 * b ^ 2)) with (- (1 / 2)) by (field; lra). replace (- b ^ 2 / (2 * (2 * b) ^ 2)) with (- (1 / 8)) by (field; lra). fold u v. field. split; lra. }
  intros x [<-|[<-|[<-|[]]]]; [apply E; ring| |apply E; ring]. unfold gaussian. replace (- (0 - 0) ^ 2) with 0 by ring. unfold Rdiv at 2 5. rewrite !Rmult_0_l, exp_0. field. split; lra.
Qed.
Example C137_nonvacuous : NoDup (map INR (seq 0 7)) /\ length (map INR (seq 0 7)) = 7%nat /\ least_squares gaussian (map INR (seq 0 7)) (map (gaussian 3 2 1 0) (map INR (seq 0 7))) 3 2 1 0 /\
  least_squares gaussian (map INR (seq 0 7)) (map (gaussian 3 2 1 0) (map INR (seq 0 7))) 3 (- 2) (- 1) 0.
Proof.
  split; [apply FinFun.Injective_map_NoDup; [intros x y; apply INR_eq|apply seq_NoDup]|]. split; [rewrite map_length; apply seq_length|]. split; [apply C137_exists; lra|].
  split; [lra|]. intros a' b' c' d' _. rewrite <- (map_ext (gaussian 3 (-2) (-1) 0) (gaussian 3 2 1 0)); [rewrite residual_self; apply residual_nonneg|]. intros x. unfold gaussian. replace (-1 / -2) with (1 / 2) by field. do 3 f_equal. f_equal. ring.
Qed.
Print Assumptions C137_gaussian. Print Assumptions C137_exists. Print Assumptions C137_three_samples_refuted. Print Assumptions C137_nonvacuous.
