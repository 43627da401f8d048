(** C127: with use_symmetry, wave vectors that are images of each other have one power spectrum.  Uses the models of get_power_spectrum_phonon and
    get_power_spectrum_wave_vector (QuasiModel, __init__.py:721-779) and of get_equivalent_q_points_by_symmetry (PhonopyLinkModel, phonopy_link.py:343-363). *)
From Verif Require Import PhonopyLinkModel PhonopyLinkSpec PhonopyLinkProofs.
From Verif Require Import QuasiModel QuasiSpec QuasiProofs QuasiMore.
From Coq Require Import Permutation Lra Lia.
Open Scope R_scope.

(** ---------- specification ---------- *)
Definition coords (v : vec) : qvec := [vx v; vy v; vz v].
Definition nonnegative (v : vec) : Prop := 0 <= vx v /\ 0 <= vy v /\ 0 <= vz v.
(** the reciprocal operations of a crystal *)
Definition group (operations : list mat) : Prop :=
  In mid operations /\ (forall a b, In a operations -> In b operations -> In (mmul a b) operations) /\
  (forall a, In a operations -> exists b, In b operations /\ is_inverse b a).
(** in coordinates of the conventional cell, q' is the operation o applied to q *)
Definition image (inv : mat -> mat) (pmat o : mat) (q q' : vec) : Prop := vmul q' (inv pmat) = mulv o (vmul q (inv pmat)).

Section C127.
Context (K : kernels) (value : PS K -> nat -> nat -> R)       (* the entry [frequency][branch] of a spectrum *)
        (inv : mat -> mat) (pmat : mat) (operations : list mat).
(** np.average(spectra, axis=0) *)
Definition averages : Prop := forall l i j, l <> [] -> value (average K l) i j = fold_right Rplus 0 (map (fun x => value x i j) l) / INR (length l).
(** the equivalent wave vectors are those of the crystal (any order of the Python set) *)
Definition crystal : Prop := forall d q, exists result, get_equivalent_q_points_by_symmetry inv pmat operations q result /\ equivalent K d (coords q) = map coords result.
(** the object after any setup and ordinary history (see C23), then set_reduced_q_vector(q) *)
Definition at_wave_vector (p : params K) (d : D K) (setup h : list (call K)) (q : vec) : state K :=
  run K (setup ++ h ++ [SetQ K (coords q)]) (MkS K p (new_obj K d None)).
Definition history (coord : Z) (p : params K) (setup h : list (call K)) : Prop :=
  length (p_q K p) = 3%nat /\ Forall (setup_call K) setup /\ Forall (ordinary K coord) h.
(** what the getter returns: an error or a spectrum *)
Definition returns (g : call K) (s : state K) (r : option (PS K)) : Prop := fst (do_call K g s) = option_map (VPS K) r.
(** the spectrum of the wave vector q alone, with the settings and trajectory of the object *)
Definition alone (g : call K) (s : state K) (q : vec) : option (PS K) :=
  match g with
  | GetPhonon _ => phonon_at K (o_dyn K (ob K s)) (par K s) (coords q)
  | GetWave _ => wave_at K (o_dyn K (ob K s)) (par K s) (coords q)
  | _ => None
  end.
Definition spectrum_of_q (g : call K) : Prop := g = GetPhonon K \/ g = GetWave K.

(** ---------- proofs ---------- *)
Lemma op_product a b : is_inverse (inv pmat) pmat -> mmul (operation_matrix_q inv pmat a) (operation_matrix_q inv pmat b) = operation_matrix_q inv pmat (mmul b a).
Proof.
  intros [H1 H2]. unfold operation_matrix_q. rewrite mT_mmul, !mmul_assoc. f_equal. f_equal. rewrite <- (mmul_assoc pmat (inv pmat)), H1, mmul_id_l. reflexivity.
Qed.
Lemma inversion_op v : is_inverse (inv pmat) pmat -> vmul v (operation_matrix_q inv pmat (mscale (-1) mid)) = vscale (-1) v.
Proof.
  intros [_ H]. unfold operation_matrix_q.
  assert (E1 : mT (mscale (-1) mid) = mscale (-1) mid) by vec_ring. assert (E2 : forall a, mmul a (mscale (-1) mid) = mscale (-1) a) by (intros a; vec_ring).
  assert (E3 : forall a b, mmul (mscale (-1) a) b = mscale (-1) (mmul a b)) by (intros a b; vec_ring). rewrite E1, E2, E3, H. vec_ring.
Qed.
Lemma image_iff o q q' : is_inverse (inv pmat) pmat -> image inv pmat o q q' <-> q' = vmul q (operation_matrix_q inv pmat o).
Proof.
  intros Hi. unfold image. rewrite <- (image_conventional inv pmat o q Hi). split; [|intros ->; reflexivity].
  intros E. apply (f_equal (fun v => vmul v pmat)) in E. destruct Hi as [_ H2]. rewrite (vmul_mmul q'), (vmul_mmul _ (inv pmat) pmat), H2, !vmul_mid in E. exact E.
Qed.
Lemma members q r : is_inverse (inv pmat) pmat -> group operations -> get_equivalent_q_points_by_symmetry inv pmat operations q r -> nonnegative q ->
  forall x, In x r <-> exists o, In o operations /\ image inv pmat o q x /\ nonnegative x.
Proof.
  intros Hi (G1 & _) Hr Hq x. rewrite (proj2 (equivalent_spec _ _ _ _ _ Hr)). split.
  - intros [->|(o & Ho & E & N)].
    + exists mid. split; [exact G1|]. split; [|exact Hq]. apply image_iff; [exact Hi|]. rewrite conj_id by exact Hi. rewrite vmul_mid. reflexivity.
    + exists o. split; [exact Ho|]. split; [apply image_iff; assumption|exact N].
  - intros (o & Ho & E & N). right. exists o. split; [exact Ho|]. split; [apply image_iff; assumption|exact N].
Qed.
Lemma image_trans a b q q' q'' : is_inverse (inv pmat) pmat -> image inv pmat a q q' -> image inv pmat b q' q'' -> image inv pmat (mmul b a) q q''.
Proof. intros Hi E1 E2. apply image_iff; [exact Hi|]. apply image_iff in E1, E2; try exact Hi. rewrite <- op_product by exact Hi. rewrite <- vmul_mmul, <- E1. exact E2. Qed.
Lemma image_back a b q q' : is_inverse (inv pmat) pmat -> is_inverse b a -> image inv pmat a q q' -> image inv pmat b q' q.
Proof.
  intros Hi [_ Hb] E. apply image_iff; [exact Hi|]. apply image_iff in E; [|exact Hi]. rewrite E, vmul_mmul, op_product by exact Hi. rewrite Hb, conj_id by exact Hi. rewrite vmul_mid. reflexivity.
Qed.
Lemma same_members q q' o r r' : is_inverse (inv pmat) pmat -> group operations -> In o operations -> image inv pmat o q q' -> nonnegative q -> nonnegative q' ->
  get_equivalent_q_points_by_symmetry inv pmat operations q r -> get_equivalent_q_points_by_symmetry inv pmat operations q' r' -> Permutation r r'.
Proof.
  intros Hi HG Ho E Nq Nq' Hr Hr'. apply NoDup_Permutation; [apply (equivalent_spec _ _ _ _ _ Hr)|apply (equivalent_spec _ _ _ _ _ Hr')|].
  intros x. rewrite (members q r Hi HG Hr Nq x), (members q' r' Hi HG Hr' Nq' x). destruct HG as (_ & G2 & G3). split; intros (a & Ha & Ea & Na).
  - destruct (G3 o Ho) as (b & Hb & Ib). exists (mmul a b). split; [apply G2; assumption|]. split; [|exact Na]. apply (image_trans b a q' q x Hi); [|exact Ea]. apply (image_back o b q q' Hi Ib E).
  - exists (mmul a o). split; [apply G2; assumption|]. split; [|exact Na]. apply (image_trans o a q q' x Hi E Ea).
Qed.
Lemma all_some_perm {A B} (f : A -> option B) l l' : Permutation l l' ->
  match all_some (map f l), all_some (map f l') with Some a, Some b => Permutation a b | None, None => True | _, _ => False end.
Proof.
  intros P. induction P as [|x l l' P IH|x y l|l1 l2 l3 P1 IH1 P2 IH2]; cbn [map all_some].
  - constructor.
  - destruct (f x) as [b|]; [|exact I]. destruct (all_some (map f l)), (all_some (map f l')); cbn [option_map]; try contradiction; [constructor; assumption|exact I].
  - destruct (f x), (f y); cbn [option_map]; try exact I; destruct (all_some (map f l)); cbn [option_map]; try exact I. constructor.
  - destruct (all_some (map f l1)), (all_some (map f l2)), (all_some (map f l3)); try contradiction; try exact I. eapply Permutation_trans; eassumption.
Qed.
Lemma sum_perm (l l' : list R) : Permutation l l' -> fold_right Rplus 0 l = fold_right Rplus 0 l'.
Proof. intros P. induction P; cbn [fold_right]; lra. Qed.
Lemma all_some_length {A} (l : list (option A)) r : all_some l = Some r -> length r = length l.
Proof. revert r. induction l as [|[a|] l IH]; intros r E; cbn in E; [injection E as <-; reflexivity| |discriminate]. destruct (all_some l) as [s|]; [|discriminate]. injection E as <-. cbn. f_equal. apply IH. reflexivity. Qed.

Lemma q_now p d setup h q coord : three_d K -> history coord p setup h -> let s := run K (setup ++ h) (MkS K p (new_obj K d None)) in
  par K (at_wave_vector p d setup h q) = with_q K (coords q) (par K s) /\ o_dyn K (ob K (at_wave_vector p d setup h q)) = o_dyn K (ob K s).
Proof.
  intros H3 (Hl & Hs & Hh) s. unfold at_wave_vector. rewrite app_assoc. unfold run. rewrite fold_left_app. fold (run K (setup ++ h) (MkS K p (new_obj K d None))).
  destruct (whole_run K coord H3 p d setup h Hl Hs Hh) as (p' & o' & E & Hi). unfold s in *. rewrite E. cbn [fold_left do_call]. unfold fm, bnd.
  destruct (set_q_ok K coord (coords q) p' o' Hi eq_refl) as (o1 & E1 & I1 & F1). rewrite E1. cbn. split; [reflexivity|].
  apply F1.
Qed.
Lemma getter_fresh coord p d setup h q g : three_d K -> history coord p setup h -> spectrum_of_q g ->
  let s := at_wave_vector p d setup h q in p_sym K (par K s) = true ->
  fst (do_call K g s) = option_map (VPS K) (option_map (average K) (all_some (map (fun q' => alone g s q') (map (fun l => V3 (nth 0 l 0) (nth 1 l 0) (nth 2 l 0)) (equivalent K (o_dyn K (ob K s)) (coords q)))))).
Proof.
  intros H3 Hh Hg s Hs. assert (Q := q_now p d setup h q coord H3 Hh). cbv zeta in Q. fold s in Q. destruct Hh as (Hl & H1 & H2).
  assert (Hh' : Forall (ordinary K coord) (h ++ [SetQ K (coords q)])) by (apply Forall_app; split; [exact H2|constructor; [reflexivity|constructor]]).
  destruct (history_fresh K coord H3 p d setup (h ++ [SetQ K (coords q)]) Hl H1 Hh') as (_ & _ & _ & _ & Ep & Ew & _). fold (at_wave_vector p d setup h q) in Ep, Ew. fold s in Ep, Ew.
  assert (C : map coords (map (fun l => V3 (nth 0 l 0) (nth 1 l 0) (nth 2 l 0)) (equivalent K (o_dyn K (ob K s)) (coords q))) = equivalent K (o_dyn K (ob K s)) (coords q)).
  { rewrite map_map. rewrite <- (map_id (equivalent K (o_dyn K (ob K s)) (coords q))) at 2. apply map_ext_in. intros l Il. assert (L := proj1 H3 _ (coords q) eq_refl l Il).
    destruct l as [|a [|b [|c [|]]]]; try discriminate. reflexivity. }
  assert (Pq : p_q K (par K s) = coords q) by (rewrite (proj1 Q); reflexivity).
  destruct Hg as [-> | ->]; [rewrite Ep; unfold fresh_phonon|rewrite Ew; unfold fresh_wave]; unfold by_symmetry; rewrite Hs, Pq; f_equal; f_equal; f_equal; rewrite <- C at 1; rewrite map_map; reflexivity.
Qed.
Lemma alone_q coord p d setup h q q' g x : three_d K -> history coord p setup h -> alone g (at_wave_vector p d setup h q) x = alone g (at_wave_vector p d setup h q') x.
Proof.
  intros H3 Hh. assert (Q := q_now p d setup h q coord H3 Hh). assert (Q' := q_now p d setup h q' coord H3 Hh). cbv zeta in Q, Q'. destruct Q as (Q1 & Q2), Q' as (Q1' & Q2').
  unfold alone. rewrite Q1, Q2, Q1', Q2'. reflexivity.
Qed.
Lemma sym_q coord p d setup h q q' : three_d K -> history coord p setup h -> p_sym K (par K (at_wave_vector p d setup h q)) = p_sym K (par K (at_wave_vector p d setup h q')).
Proof.
  intros H3 Hh. assert (Q := q_now p d setup h q coord H3 Hh). assert (Q' := q_now p d setup h q' coord H3 Hh). cbv zeta in Q, Q'. rewrite (proj1 Q), (proj1 Q'). reflexivity.
Qed.
Lemma value_in_average coord p d setup h q g : three_d K -> crystal -> history coord p setup h -> spectrum_of_q g ->
  let s := at_wave_vector p d setup h q in p_sym K (par K s) = true ->
  exists r, get_equivalent_q_points_by_symmetry inv pmat operations q r /\ returns g s (option_map (average K) (all_some (map (alone g s) r))).
Proof.
  intros H3 HC Hh Hg s Hs. destruct (HC (o_dyn K (ob K s)) q) as (r & Hr & Er). exists r. split; [exact Hr|]. unfold returns.
  assert (F := getter_fresh coord p d setup h q g H3 Hh Hg Hs). cbv zeta in F. fold s in F. rewrite F, Er. do 4 f_equal. rewrite map_map. rewrite <- (map_id r) at 2. apply map_ext. intros []. reflexivity.
Qed.

(** Images of each other under an operation of the crystal, both with components not below zero: the two requests fail together or return the same values,
    whatever was asked before. *)
Theorem C127_one_spectrum_partial : forall coord p d setup h q q' o g, three_d K -> averages -> crystal -> is_inverse (inv pmat) pmat -> group operations ->
  history coord p setup h -> spectrum_of_q g -> p_sym K (par K (at_wave_vector p d setup h q)) = true ->
  In o operations -> image inv pmat o q q' -> nonnegative q -> nonnegative q' ->
  exists a b, returns g (at_wave_vector p d setup h q) a /\ returns g (at_wave_vector p d setup h q') b /\
    match a, b with Some a, Some b => forall i j, value a i j = value b i j | None, None => True | _, _ => False end.
Proof.
  intros coord p d setup h q q' o g H3 HA HC Hi HG Hh Hg Hs Ho E Nq Nq'.
  destruct (value_in_average coord p d setup h q g H3 HC Hh Hg Hs) as (r & Hr & Rr).
  assert (Hs' : p_sym K (par K (at_wave_vector p d setup h q')) = true) by (rewrite (sym_q coord p d setup h q' q H3 Hh); exact Hs).
  destruct (value_in_average coord p d setup h q' g H3 HC Hh Hg Hs') as (r' & Hr' & Rr').
  eexists. eexists. split; [exact Rr|]. split; [exact Rr'|].
  assert (P := same_members q q' o r r' Hi HG Ho E Nq Nq' Hr Hr').
  assert (X := all_some_perm (alone g (at_wave_vector p d setup h q)) r r' P).
  rewrite (map_ext (alone g (at_wave_vector p d setup h q')) (alone g (at_wave_vector p d setup h q)) (fun x => alone_q coord p d setup h q' q g x H3 Hh)).
  assert (L := all_some_length (map (alone g (at_wave_vector p d setup h q)) r)).
  destruct (all_some (map (alone g (at_wave_vector p d setup h q)) r)) as [a|], (all_some (map (alone g (at_wave_vector p d setup h q)) r')) as [b|]; cbn [option_map]; try exact X.
  intros i j. specialize (L a eq_refl). rewrite map_length in L.
  assert (Na : a <> []). { intros ->. assert (In q r) by (apply (equivalent_spec _ _ _ _ _ Hr); left; reflexivity). destruct r; [contradiction|discriminate]. }
  assert (Nb : b <> []) by (intros ->; apply Permutation_sym, Permutation_nil in X; contradiction).
  rewrite !HA by assumption. rewrite (Permutation_length X). f_equal. apply sum_perm, Permutation_map, X.
Qed.

(** A wave vector with a component below zero: its own spectrum enters the average in addition to those of the images, so it agrees with an image exactly
    where its own spectrum does (so not, for a wave running along it: C123). *)
Theorem C127_negative_refuted : forall coord p d setup h q q' o g, three_d K -> averages -> crystal -> is_inverse (inv pmat) pmat -> group operations ->
  history coord p setup h -> spectrum_of_q g -> p_sym K (par K (at_wave_vector p d setup h q)) = true ->
  In o operations -> image inv pmat o q q' -> ~ nonnegative q -> nonnegative q' ->
  forall a b c, returns g (at_wave_vector p d setup h q) (Some a) -> returns g (at_wave_vector p d setup h q') (Some b) -> alone g (at_wave_vector p d setup h q) q = Some c ->
  exists n, (1 <= n)%nat /\ forall i j, value a i j - value b i j = (value c i j - value b i j) / (INR n + 1) /\ (value a i j = value b i j <-> value c i j = value b i j).
Proof.
  intros coord p d setup h q q' o g H3 HA HC Hi HG Hh Hg Hs Ho E Nq Nq' a b c Ra Rb Ec.
  destruct (value_in_average coord p d setup h q g H3 HC Hh Hg Hs) as (r & Hr & Rr).
  assert (Hs' : p_sym K (par K (at_wave_vector p d setup h q')) = true) by (rewrite (sym_q coord p d setup h q' q H3 Hh); exact Hs).
  destruct (value_in_average coord p d setup h q' g H3 HC Hh Hg Hs') as (r' & Hr' & Rr').
  assert (P : Permutation r (q :: r')).
  { assert (S := equivalent_spec _ _ _ _ _ Hr). assert (M' := members q' r' Hi HG Hr' Nq'). apply NoDup_Permutation; [apply S|constructor; [|apply (equivalent_spec _ _ _ _ _ Hr')]|].
    - intros I0. apply M' in I0. destruct I0 as (? & _ & _ & N). contradiction.
    - intros x. rewrite (proj2 S). cbn [In]. rewrite M'. destruct HG as (_ & G2 & G3). split.
      + intros [->|(s & Hs0 & Es & Ns)]; [left; reflexivity|right]. destruct (G3 o Ho) as (o' & Ho' & Io). exists (mmul s o'). split; [apply G2; assumption|]. split; [|exact Ns].
        apply (image_trans o' s q' q x Hi); [apply (image_back o o' q q' Hi Io E)|apply image_iff; assumption].
      + intros [->|(s & Hs0 & Es & Ns)]; [left; reflexivity|right]. exists (mmul s o). split; [apply G2; assumption|]. split; [|exact Ns].
        apply image_iff; [exact Hi|]. apply (image_trans o s q q' x Hi E Es). }
  assert (X := all_some_perm (alone g (at_wave_vector p d setup h q)) r (q :: r') P).
  rewrite (map_ext (alone g (at_wave_vector p d setup h q')) (alone g (at_wave_vector p d setup h q)) (fun x => alone_q coord p d setup h q' q g x H3 Hh)) in Rr'.
  unfold returns in *. rewrite Ra in Rr. rewrite Rb in Rr'. cbn [map all_some] in X. rewrite Ec in X.
  assert (L := all_some_length (map (alone g (at_wave_vector p d setup h q)) r')).
  destruct (all_some (map (alone g (at_wave_vector p d setup h q)) r)) as [la|]; [|discriminate Rr]. destruct (all_some (map (alone g (at_wave_vector p d setup h q)) r')) as [lb|]; [|discriminate Rr'].
  cbn [option_map] in Rr, Rr', X. injection Rr as ->. injection Rr' as ->. specialize (L lb eq_refl). rewrite map_length in L.
  assert (Nr : r' <> []). { intros ->. assert (In q' []) as [] by (apply (equivalent_spec _ _ _ _ _ Hr'); left; reflexivity). }
  assert (Nb : lb <> []) by (intros ->; destruct r'; [contradiction|discriminate]).
  assert (Na : la <> []) by (intros ->; apply Permutation_nil in X; discriminate).
  exists (length lb). split; [destruct lb; [contradiction|cbn; lia]|]. intros i j. rewrite !HA by assumption. rewrite (Permutation_length X).
  rewrite (sum_perm (map (fun x => value x i j) la) (map (fun x => value x i j) (c :: lb))) by (apply Permutation_map, X). cbn [map fold_right length]. rewrite S_INR.
  assert (PN : 0 < INR (length lb)) by (apply lt_0_INR; destruct lb; [contradiction|cbn; lia]).
  set (S := fold_right Rplus 0 (map (fun x => value x i j) lb)). set (n := INR (length lb)) in *. set (w := value c i j).
  assert (Z : (w + S) / (n + 1) - S / n = (w - S / n) / (n + 1)) by (field; lra). split; [exact Z|]. split; intros H.
  - assert ((w - S / n) / (n + 1) = 0) by (rewrite <- Z, H; ring). apply Rmult_integral in H0. destruct H0 as [H0|H0]; [lra|]. exfalso. assert (0 < / (n + 1)) by (apply Rinv_0_lt_compat; lra). lra.
  - assert ((w + S) / (n + 1) - S / n = 0) by (rewrite Z, H; unfold Rdiv; ring). lra.
Qed.

(** Reciprocal lattice vectors are not considered: in a crystal whose only operation is the inversion the wave vectors q and (1,1,1) - q inside the cell, the
    inversion images of each other up to a reciprocal lattice vector, are not averaged: each shows its own spectrum only. *)
Theorem C127_translations_refuted : forall coord p d setup h q g, operations = [mid; mscale (-1) mid] -> three_d K -> averages -> crystal -> is_inverse (inv pmat) pmat ->
  history coord p setup h -> spectrum_of_q g -> p_sym K (par K (at_wave_vector p d setup h q)) = true ->
  0 < vx q < 1 -> 0 < vy q < 1 -> 0 < vz q < 1 -> let q' := vsub (V3 1 1 1) q in
  image inv pmat (mscale (-1) mid) q (vsub q' (V3 1 1 1)) /\
  forall a b, returns g (at_wave_vector p d setup h q) (Some a) -> returns g (at_wave_vector p d setup h q') (Some b) ->
  exists c c', alone g (at_wave_vector p d setup h q) q = Some c /\ alone g (at_wave_vector p d setup h q) q' = Some c' /\ forall i j, value a i j = value c i j /\ value b i j = value c' i j.
Proof.
  intros coord p d setup h q g HO H3 HA HC Hi Hh Hg Hs H1 H2 H4 q'.
  assert (Single : forall v r, 0 < vx v -> 0 < vy v -> 0 < vz v -> get_equivalent_q_points_by_symmetry inv pmat operations v r -> r = [v]).
  { intros v r V1 V2 V3 Hr. assert (S := equivalent_spec _ _ _ _ _ Hr). apply Permutation_length_1_inv. apply Permutation_sym. apply NoDup_Permutation; [apply S|constructor; [intros []|constructor]|].
    intros x. rewrite (proj2 S). cbn [In]. split; [|intros [<-|[]]; left; reflexivity]. intros [->|(s & Hs0 & Es & N)]; [left; reflexivity|]. rewrite HO in Hs0. destruct Hs0 as [<-|[<-|[]]].
    - left. rewrite Es, conj_id by exact Hi. rewrite vmul_mid. reflexivity.
    - exfalso. assert (Ev : x = vscale (-1) v).
      { rewrite Es. apply inversion_op, Hi. }
      rewrite Ev in N. unfold vscale in N. cbn in N. lra. }
  split.
  - apply image_iff; [exact Hi|]. rewrite inversion_op by exact Hi. unfold q'. vec_ring.
  - intros a b Ra Rb.
    assert (Hs' : p_sym K (par K (at_wave_vector p d setup h q')) = true) by (rewrite (sym_q coord p d setup h q' q H3 Hh); exact Hs).
    destruct (value_in_average coord p d setup h q g H3 HC Hh Hg Hs) as (r & Hr & Rr). destruct (value_in_average coord p d setup h q' g H3 HC Hh Hg Hs') as (r' & Hr' & Rr').
    apply Single in Hr; try lra. apply Single in Hr'; try (unfold q', vsub; cbn; lra). subst r r'. unfold returns in *. rewrite Ra in Rr. rewrite Rb in Rr'. cbn [map all_some] in Rr, Rr'.
    rewrite (alone_q coord p d setup h q' q g q' H3 Hh) in Rr'.
    destruct (alone g (at_wave_vector p d setup h q) q) as [c|]; [|discriminate Rr]. destruct (alone g (at_wave_vector p d setup h q) q') as [c'|]; [|discriminate Rr'].
    cbn [option_map] in Rr, Rr'. injection Rr as ->. injection Rr' as ->. exists c, c'. split; [reflexivity|]. split; [reflexivity|]. intros i j.
    rewrite !HA by discriminate. cbn. split; field.
Qed.
End C127.
Print Assumptions C127_one_spectrum_partial.
Print Assumptions C127_negative_refuted.
Print Assumptions C127_translations_refuted.

(** ---------- concrete crystals: one with the exchange of x and y, one with the inversion; the spectrum at q is vx q ---------- *)
Definition e_vec (l : qvec) : vec := V3 (nth 0 l 0) (nth 1 l 0) (nth 2 l 0).
Definition e_K (operations : list mat) : kernels := {|
  D := unit; VC := qvec; VQ := qvec; E := unit; PS := R; FC := unit; FR := unit; fr_eq_dec := fun a b => match a, b with tt, tt => left eq_refl end; O := unit;
  crop := fun _ d => Some d; crop_vc := fun _ v => v; primitive_atoms := fun _ => 1%Z; eig := fun _ _ => (tt, []); project := fun _ q _ => q; modes := fun v _ => v;
  spectrum_vq := fun _ _ _ _ v _ => Some (vx (e_vec v)); spectrum_vc := fun _ _ _ _ v _ => Some (vx (e_vec v));
  average := fun l => fold_right Rplus 0 l / INR (length l); spectrum_full := fun _ _ _ _ _ _ _ => None; spectrum_partials := fun _ _ _ _ _ => None;
  equivalent := fun _ q => map coords (equivalent_points (fun m => m) mid operations (e_vec q)); limits_range := fun _ _ _ => tt; respan := fun r _ => r;
  com_points := fun _ _ => []; dos_max := fun _ _ => 0; qha_frequencies := fun _ _ _ => []; fit := fun _ _ _ _ _ _ => ([], []); renormalize := fun _ _ _ _ _ => tt; maxwell_scale := fun _ => 1 |}.
Definition e_exchange : mat := M3 (V3 0 1 0) (V3 1 0 0) (V3 0 0 1).
Definition e_p operations : params (e_K operations) := MkP (e_K operations) [0; 0; 0] 1 100 tt 1 (-1) true false 0 false false tt.
Lemma e_group a : mmul a a = mid -> group [mid; a].
Proof.
  intros Ha. split; [left; reflexivity|]. split.
  - intros x y [<-|[<-|[]]] [<-|[<-|[]]]; rewrite ?mmul_id_l, ?mmul_id_r, ?Ha; cbn; auto.
  - intros x [<-|[<-|[]]]; [exists mid; split; [left; reflexivity|split; apply mmul_id_l]|exists a; split; [right; left; reflexivity|split; exact Ha]].
Qed.
Example C127_nonvacuous : forall a, a = e_exchange \/ a = mscale (-1) mid -> let ops := [mid; a] in
  three_d (e_K ops) /\ averages (e_K ops) (fun x _ _ => x) /\ crystal (e_K ops) (fun m => m) mid ops /\ is_inverse mid mid /\ group ops /\
  history (e_K ops) 0 (e_p ops) [] [GetWave (e_K ops); SelAlg (e_K ops) 2] /\
  p_sym (e_K ops) (par (e_K ops) (at_wave_vector (e_K ops) (e_p ops) tt [] [GetWave (e_K ops); SelAlg (e_K ops) 2] (V3 (1/4) (1/2) 0))) = true /\
  image (fun m => m) mid e_exchange (V3 (1/4) (1/2) 0) (V3 (1/2) (1/4) 0) /\ image (fun m => m) mid (mscale (-1) mid) (V3 (-1/4) (-1/4) 0) (V3 (1/4) (1/4) 0).
Proof.
  intros a Ha ops. assert (S : mmul a a = mid) by (destruct Ha as [-> | ->]; vec_ring). assert (Im : is_inverse mid mid) by (split; apply mmul_id_l).
  assert (T : three_d (e_K ops)). { split; [|intros d o q []]. intros d q Hq q' I0. cbn in I0. apply in_map_iff in I0. destruct I0 as (v & <- & _). reflexivity. }
  assert (Hh : history (e_K ops) 0 (e_p ops) [] [GetWave (e_K ops); SelAlg (e_K ops) 2]) by (split; [reflexivity|]; split; [constructor|]; repeat constructor).
  split; [exact T|]. split; [intros l i j Hl; cbn; rewrite map_id; reflexivity|].
  split; [intros d q; exists (equivalent_points (fun m => m) mid ops q); split; [apply Permutation_refl|cbn; destruct q; reflexivity]|].
  split; [exact Im|]. split; [apply e_group, S|]. split; [exact Hh|].
  split.
  - assert (Q := q_now (e_K ops) (e_p ops) tt [] [GetWave (e_K ops); SelAlg (e_K ops) 2] (V3 (1/4) (1/2) 0) 0%Z T Hh). cbv zeta in Q. rewrite (proj1 Q).
    change (p_sym (e_K ops) (par (e_K ops) (run (e_K ops) ([] ++ [GetWave (e_K ops); SelAlg (e_K ops) 2]) (MkS (e_K ops) (e_p ops) (new_obj (e_K ops) tt None)))) = true).
    cbn [app]. unfold run. cbn [fold_left]. unfold do_call at 2, fm, bnd. 
    destruct (get_power_spectrum_wave_vector (e_K ops) (MkS (e_K ops) (e_p ops) (new_obj (e_K ops) tt None))) as [[x|] s'] eqn:Eg.
    + destruct (wave_par _ _ _ _ Eg) as (Ep & _). destruct s' as [p1 o1]. cbn [par] in Ep. subst p1. reflexivity.
    + exfalso. destruct (history_fresh (e_K ops) 0%Z T (e_p ops) tt [] [] eq_refl ltac:(constructor) ltac:(constructor)) as (_ & _ & _ & _ & _ & W & _).
      cbn [app run fold_left do_call] in W. unfold fm, bnd in W. rewrite Eg in W. cbn [fst] in W. unfold fresh_wave, by_symmetry in W. cbn [par ob p_sym e_p] in W.
      assert (A : forall l, all_some (map (fun q => wave_at (e_K ops) tt (e_p ops) q) l) = Some (map (fun q => vx (e_vec q)) l)).
      { induction l as [|y l IH]; [reflexivity|]. cbn [map all_some]. rewrite IH. reflexivity. }
      cbn [o_dyn new_obj] in W. rewrite A in W. discriminate.
  - split; unfold image; vec_ring; lra.
Qed.
