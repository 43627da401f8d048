(** C51: progress bar and curve files; C52: anisotropic displacement parameters; C53: order of in-memory LAMMPS runs;
    C54: fitdata. *)
From Verif Require Import OutputModel OutputSpec OutputProofs.
From Coq Require Import List.
Open Scope R_scope.

(** The bar always has 30 cells, shows a percentage between 0 and 100, and is full and empty at the ends; only a nan is refused. *)
Theorem C51_bar : forall p, p <> PNan -> exists filled empty percent s, progress_bar p = Some (filled, empty, percent, s) /\
  (filled + empty = 30)%nat /\ 0 <= percent <= 100 /\ -(1/2) <= 30 * (percent / 100) - INR filled <= 1/2.
Proof.
  intros p Hp. assert (H := progress_bar_value p). destruct (num_value p) as [x|] eqn:E; [|destruct p as [| |[]| |]; try discriminate E; contradiction].
  destruct H as [s Hs]. assert (B : 0 <= x <= 1) by (destruct p as [| |[]| |]; cbn in E; try discriminate E; injection E as <-; try apply clip_range; lra).
  rewrite Hs. do 4 eexists. split; [reflexivity|]. assert (A := around_30 x B). split; [lia|]. split; [lra|]. rewrite INR_IZR_INZ, Z2Nat.id by lia. replace (30 * (x * 100 / 100)) with (30 * x) by field. apply around_half.
Qed.
(** More progress never shows fewer filled cells. *)
Theorem C51_bar_monotone : forall x y, x <= y -> exists f e p s f' e' p' s',
  progress_bar (PFloat x) = Some (f, e, p, s) /\ progress_bar (PFloat y) = Some (f', e', p', s') /\ (f <= f')%nat /\ p <= p'.
Proof.
  intros x y H. destruct (progress_bar_value (PFloat x)) as [s Hs]. destruct (progress_bar_value (PFloat y)) as [s' Hs']. rewrite Hs, Hs'. do 8 eexists. split; [reflexivity|]. split; [reflexivity|].
  assert (C := clip_mono _ _ H). split; [|lra]. apply Z2Nat.inj_le; try apply around_30, clip_range. apply around_mono. lra.
Qed.
Theorem C51_bar_ends : forall x, (x <= 0 -> exists p s, progress_bar (PFloat x) = Some (0%nat, 30%nat, p, s) /\ p = 0) /\
  (1 <= x -> exists p, progress_bar (PFloat x) = Some (30%nat, 0%nat, p, SDone) /\ p = 100).
Proof.
  intros x. split; intros H; unfold progress_bar; cbv beta zeta.
  - destruct (Rlt_dec x 0) as [L|L].
    + destruct (Rle_dec 1 0); [lra|]. rewrite Rmult_0_r, around_IZR. do 2 eexists. split; [reflexivity|ring].
    + destruct (Rle_dec 1 x); [lra|]. replace x with 0 by lra. rewrite Rmult_0_r, around_IZR. do 2 eexists. split; [reflexivity|ring].
  - destruct (Rlt_dec x 0); [lra|]. destruct (Rle_dec 1 x); [|lra]. rewrite Rmult_1_r, around_IZR. eexists. split; [reflexivity|ring].
Qed.
(** Reading a curve file as a table gives one line per row of the matrix, holding its frequency and its values in order; with
    fewer frequencies than rows nothing is returned (IndexError). *)
Theorem C51_curves : forall ff fv, (forall x, plain (ff x)) -> (forall x, plain (fv x)) -> forall frequencies rows,
  ((List.length rows <= List.length frequencies)%nat -> exists text, write_rows ff fv frequencies rows = Some text /\
     List.length (read_table text) = List.length rows /\
     forall i row, nth_error rows i = Some row -> exists f, nth_error frequencies i = Some f /\ nth_error (read_table text) i = Some (ff f :: map fv row)) /\
  ((List.length frequencies < List.length rows)%nat -> write_rows ff fv frequencies rows = None).
Proof.
  intros ff fv Pf Pv frequencies rows. split; [|apply write_rows_fail]. intros H. destruct (write_rows_read ff fv Pf Pv frequencies rows H) as (text & E & R0). exists text. split; [exact E|]. rewrite R0.
  split; [rewrite map_length, combine_length; lia|]. clear - H. revert frequencies H. induction rows as [|r rows IH]; intros frequencies H i row Hi; [destruct i; discriminate|].
  destruct frequencies as [|f frequencies]; [cbn in H; lia|]. destruct i as [|i]; cbn in Hi.
  - injection Hi as <-. exists f. split; reflexivity.
  - cbn. apply IH; [cbn in H; lia|exact Hi].
Qed.
Print Assumptions C51_bar.
Print Assumptions C51_bar_monotone.
Print Assumptions C51_bar_ends.
Print Assumptions C51_curves.
Example C51_nonvacuous : exists s, progress_bar (PFloat (1/2)) = Some (15%nat, 15%nat, 1/2 * 100, s).
Proof. unfold progress_bar. destruct (Rlt_dec (1/2) 0); [lra|]. destruct (Rle_dec 1 (1/2)); [lra|]. replace (30 * (1/2)) with (IZR 15) by lra. rewrite around_IZR. eexists. reflexivity. Qed.
Example C51_nonvacuous_curves : (forall x : R, plain ((fun _ => "1.0"%string) x)).
Proof. intros x. cbn. repeat split; discriminate. Qed.

(** C52.  The crystal tensor is the tensor of the displacements written in the lattice basis. *)
Theorem C52_crystal : forall cell cell_inv samples, is_inverse cell_inv cell ->
  adp cell_inv (second_moment samples) Crys = second_moment (map (fun s => (fst s, vmul (snd s) cell_inv)) samples) /\
  forall u, vmul (vmul u cell_inv) cell = u.
Proof.
  intros cell cell_inv samples [_ H]. split; [apply congruence_moment|]. intros u. assert (E : vmul (vmul u cell_inv) cell = vmul u (mmul cell_inv cell)).
  { destruct u, cell as [[] [] []], cell_inv as [[] [] []]. mx. f_equal; ring. }
  rewrite E, H. destruct u. cbv [mid]. mx. f_equal; ring.
Qed.
(** The dimensionless tensor divides by the lengths of the reciprocal vectors. *)
Theorem C52_uvrs : forall cell_inv u, let a := mT cell_inv in
  let c := adp cell_inv u Crys in let s := adp cell_inv u Uvrs in
  vx (r0 s) = vx (r0 c) / (vnorm (r0 a) * vnorm (r0 a)) /\ vy (r1 s) = vy (r1 c) / (vnorm (r1 a) * vnorm (r1 a)) /\ vz (r2 s) = vz (r2 c) / (vnorm (r2 a) * vnorm (r2 a)) /\
  vy (r0 s) = vy (r0 c) / (vnorm (r0 a) * vnorm (r1 a)) /\ vz (r0 s) = vz (r0 c) / (vnorm (r0 a) * vnorm (r2 a)) /\ vz (r1 s) = vz (r1 c) / (vnorm (r1 a) * vnorm (r2 a)).
Proof.
  intros cell_inv u a c s. unfold s, c, adp. fold a. set (n0 := vnorm (r0 a)). set (n1 := vnorm (r1 a)). set (n2 := vnorm (r2 a)). clearbody n0 n1 n2. generalize (mmul (mmul a u) cell_inv) as m. intros [[] [] []]. clear.
  unfold Rdiv. rewrite !Rinv_mult. mx. repeat split; ring.
Qed.
Theorem C52_symmetric : forall cell_inv u c, symmetric u -> symmetric (adp cell_inv u c).
Proof.
  intros cell_inv u c H. unfold adp. destruct c; [exact H|apply congruence_symmetric, H|].
  rewrite mT_mdiag. set (D := mdiag _ _ _). assert (E : D = mT D) by reflexivity. rewrite E at 1. apply congruence_symmetric, congruence_symmetric, H.
Qed.
Theorem C52_positive : forall cell_inv u c, positive_form u -> positive_form (adp cell_inv u c).
Proof.
  intros cell_inv u c H. unfold adp. destruct c; [exact H|apply congruence_positive, H|].
  rewrite mT_mdiag. set (D := mdiag _ _ _). assert (E : D = mT D) by reflexivity. rewrite E at 1. apply congruence_positive, congruence_positive, H.
Qed.
(** The inverse transformation gives the cartesian tensor back. *)
Theorem C52_recover : forall cell cell_inv u, is_inverse cell_inv cell ->
  mmul (mmul (mT cell) (adp cell_inv u Crys)) cell = u /\
  (let a := mT cell_inv in let n := mdiag (vnorm (r0 a)) (vnorm (r1 a)) (vnorm (r2 a)) in mmul (mmul n (adp cell_inv u Uvrs)) n = adp cell_inv u Crys).
Proof.
  intros cell cell_inv u [H1 H2]. split.
  - unfold adp. rewrite <- !mmul_assoc', <- mT_mmul. rewrite H2, mT_mid, mmul_id_l', mmul_assoc', H2. apply mmul_id_r'.
  - assert (P : forall v, v <> vzero -> vnorm v <> 0).
    { intros [x y z] Hv E. unfold vnorm in E. apply sqrt_eq_0 in E; [|unfold vnorm2, vdot; cbn; nra]. unfold vnorm2, vdot in E. cbn in E. apply Hv. unfold vzero. f_equal; nra. }
    assert (N : vnorm (r0 (mT cell_inv)) <> 0 /\ vnorm (r1 (mT cell_inv)) <> 0 /\ vnorm (r2 (mT cell_inv)) <> 0).
    { destruct cell as [[c00 c01 c02] [c10 c11 c12] [c20 c21 c22]], cell_inv as [[a00 a01 a02] [a10 a11 a12] [a20 a21 a22]]. cbv [mid mmul vmul vx vy vz r0 r1 r2] in H1. injection H1 as E0 E1 E2 E3 E4 E5 E6 E7 E8.
      repeat split; apply P; cbn; intros E; unfold vzero in E; injection E as F0 F1 F2; rewrite F0, F1, F2 in *; lra. }
    unfold adp. cbv zeta. set (n0 := vnorm _) in *. set (n1 := vnorm _) in *. set (n2 := vnorm _) in *. clearbody n0 n1 n2. generalize (mmul (mmul (mT cell_inv) u) cell_inv) as m. intros [[] [] []]. mx. destruct N as (N0 & N1 & N2). f_equal; f_equal; field; auto.
Qed.
(** For a cell with orthogonal edges along the axes the dimensionless tensor is the cartesian one. *)
Theorem C52_orthogonal : forall a b c u, 0 < a -> 0 < b -> 0 < c -> adp (mdiag (/ a) (/ b) (/ c)) u Uvrs = u.
Proof.
  intros a b c u A B C. assert (P : forall x, 0 < x -> sqrt (/ x * / x) = / x) by (intros x Hx; apply sqrt_square; left; apply Rinv_0_lt_compat, Hx).
  unfold adp. cbv zeta. assert (E0 : vnorm (r0 (mT (mdiag (/ a) (/ b) (/ c)))) = / a) by (transitivity (sqrt (/ a * / a)); [unfold vnorm, vnorm2, vdot; f_equal; cbn; ring|apply P, A]).
  assert (E1 : vnorm (r1 (mT (mdiag (/ a) (/ b) (/ c)))) = / b) by (transitivity (sqrt (/ b * / b)); [unfold vnorm, vnorm2, vdot; f_equal; cbn; ring|apply P, B]).
  assert (E2 : vnorm (r2 (mT (mdiag (/ a) (/ b) (/ c)))) = / c) by (transitivity (sqrt (/ c * / c)); [unfold vnorm, vnorm2, vdot; f_equal; cbn; ring|apply P, C]).
  rewrite E0, E1, E2, !Rinv_inv. destruct u as [[] [] []]. mx. f_equal; f_equal; field; lra.
Qed.
(** The six printed numbers are U11 U22 U33 U23 U13 U12, the order of the printed header ... *)
Theorem C52_printed_order : forall u, adp_row u = [entry u 1 1; entry u 2 2; entry u 3 3; entry u 2 3; entry u 1 3; entry u 1 2].
Proof. intros [[a b c] [d e f] [g h i]]. unfold adp_row, entry, axis. unfold mulv, vdot. cbn [vx vy vz r0 r1 r2]. repeat (apply f_equal2; [ring|]). reflexivity. Qed.
(** ... and they determine the tensor. *)
Theorem C52_printed : forall u v, symmetric u -> symmetric v -> adp_row v = adp_row u -> v = u.
Proof.
  intros [[a b c] [d e f] [g h i]] [[a' b' c'] [d' e' f'] [g' h' i']] Hu Hv E. unfold symmetric in *. cbv [mT vx vy vz r0 r1 r2] in Hu, Hv. injection Hu as Hu1 Hu2 Hu3 Hu4 Hu5 Hu6. injection Hv as Hv1 Hv2 Hv3 Hv4 Hv5 Hv6. unfold adp_row in E. cbv [vx vy vz r0 r1 r2] in E. injection E as -> -> -> -> -> ->. f_equal; f_equal; congruence.
Qed.
Print Assumptions C52_crystal.
Print Assumptions C52_uvrs.
Print Assumptions C52_symmetric.
Print Assumptions C52_positive.
Print Assumptions C52_recover.
Print Assumptions C52_orthogonal.
Print Assumptions C52_printed_order.
Print Assumptions C52_printed.
Example C52_nonvacuous : is_inverse (mdiag (/2) (/3) (/4)) (mdiag 2 3 4) /\ symmetric (second_moment [(1, V3 1 2 3); (2, V3 0 1 0)]) /\ adp (mdiag (/2) (/3) (/4)) (outer (V3 2 3 4)) Crys = outer (V3 1 1 1).
Proof.
  split; [split; cbv [mid]; mx; f_equal; f_equal; field|]. split.
  - unfold symmetric, second_moment, msum. cbn [map fold_right fst snd]. mx. f_equal; f_equal; ring.
  - unfold adp. mx. f_equal; f_equal; field.
Qed.

(** C53.  Entry k of a gathered list belongs to the atom whose id stands at position id_k - 1. *)
Theorem C53_column : forall (X : Type) (d : X) s k i, ids_ok s -> nth_error (map fst s) k = Some i ->
  exists j x, nth_error (map fst s) (i - 1) = Some j /\ nth_error (gather d s) k = Some x /\ of_id s j x.
Proof.
  intros X d s k i H E. destruct (gather_at d s k i H E) as (j & x & A & B). exists j, x. split; [rewrite nth_error_map, A; reflexivity|]. split; [exact B|]. unfold of_id. eapply nth_error_In, A.
Qed.
(** So the list is in id order when the internal order is its own inverse (in particular when LAMMPS keeps id order). *)
Theorem C53_order_partial : forall (X : Type) (d : X) s, ids_ok s ->
  (forall k i, nth_error (map fst s) k = Some i -> nth_error (map fst s) (i - 1) = Some (S k)) -> id_ordered s (gather d s).
Proof.
  intros X d s H Inv. split; [apply gather_length|]. intros k x E.
  destruct (nth_error (map fst s) k) as [i|] eqn:F.
  - destruct (C53_column X d s k i H F) as (j & y & A & B & C). rewrite (Inv _ _ F) in A. injection A as <-. rewrite B in E. injection E as <-. exact C.
  - apply nth_error_None in F. rewrite map_length, <- (gather_length d) in F. apply nth_error_None in F. congruence.
Qed.
(** In any other internal order, with atoms at different places, it is not in id order. *)
Theorem C53_order_refuted : forall (X : Type) (d : X) s k i, ids_ok s -> NoDup (map snd s) ->
  nth_error (map fst s) k = Some i -> nth_error (map fst s) (i - 1) <> Some (S k) -> ~ id_ordered s (gather d s).
Proof.
  intros X d s k i H ND E N [_ O]. destruct (C53_column X d s k i H E) as (j & x & A & B & C). assert (D := O _ _ B). unfold of_id in *.
  assert (EQ : j = S k) by (eapply unique_owner; eassumption).
  apply N. rewrite A, EQ. reflexivity.
Qed.
(** As long as the internal order stays the same through the run, a column of the trajectory follows one atom. *)
Theorem C53_follow_partial : forall (X : Type) (d : X) indexing run ids, (forall s, In s run -> ids_ok s /\ map fst s = ids) ->
  (forall c, In c indexing -> (c < List.length ids)%nat) ->
  forall c, (c < List.length indexing)%nat -> exists atom, forall s, In s run -> of_id s atom (nth c (frame d indexing s) d).
Proof.
  intros X d indexing run ids H Hi c Hc. set (k := nth c indexing O). assert (Hk : (k < List.length ids)%nat) by (apply Hi, nth_In, Hc).
  destruct (nth_error ids k) as [i|] eqn:Ei; [|apply nth_error_None in Ei; lia].
  exists (nth (i - 1) ids O). intros s Hs. destruct (H s Hs) as [Ok <-]. destruct (C53_column X d s k i Ok Ei) as (j & x & A & B & C).
  rewrite (nth_error_nth _ _ O A). unfold frame. rewrite (nth_indep _ d (nth O (gather d s) d)) by (rewrite map_length; exact Hc). rewrite (map_nth (fun k => nth k (gather d s) d)). fold k. rewrite (nth_error_nth _ _ d B). exact C.
Qed.
(** When LAMMPS reorders its atoms between two steps so that the square of the order changes, the column changes atom. *)
Theorem C53_follow_refuted : forall (X : Type) (d : X) indexing (s1 s2 : list (nat * X)) c k, ids_ok s1 -> ids_ok s2 -> NoDup (map snd s1) -> NoDup (map snd s2) ->
  nth_error indexing c = Some k -> (k < List.length s1)%nat -> (k < List.length s2)%nat ->
  (forall i1 i2, nth_error (map fst s1) k = Some i1 -> nth_error (map fst s2) k = Some i2 -> nth_error (map fst s1) (i1 - 1) <> nth_error (map fst s2) (i2 - 1)) ->
  ~ exists atom, of_id s1 atom (nth c (frame d indexing s1) d) /\ of_id s2 atom (nth c (frame d indexing s2) d).
Proof.
  intros X d indexing s1 s2 c k O1 O2 D1 D2 Ec K1 K2 N (atom & A1 & A2).
  assert (F : forall s, ids_ok s -> NoDup (map snd s) -> (k < List.length s)%nat -> of_id s atom (nth c (frame d indexing s) d) ->
    exists i, nth_error (map fst s) k = Some i /\ nth_error (map fst s) (i - 1) = Some atom).
  { intros s O ND K A. destruct (nth_error (map fst s) k) as [i|] eqn:E; [|apply nth_error_None in E; rewrite map_length in E; lia]. exists i. split; [reflexivity|].
    destruct (C53_column X d s k i O E) as (j & x & B & C & D). assert (Hx : nth c (frame d indexing s) d = x).
    { apply nth_error_nth. unfold frame. rewrite nth_error_map, Ec. cbn [option_map]. f_equal. apply nth_error_nth, C. }
    rewrite Hx in A. rewrite B. f_equal. eapply unique_owner; eassumption. }
  destruct (F s1 O1 D1 K1 A1) as (i1 & P1 & Q1). destruct (F s2 O2 D2 K2 A2) as (i2 & P2 & Q2). apply (N i1 i2 P1 P2). congruence.
Qed.
(** Times are as many as frames, start at zero, are equally spaced and stay inside the run. *)
Theorem C53_times : forall total dt sampling, 0 < dt -> (0 < sampling)%nat -> 0 <= total ->
  let n := n_loops total dt sampling in let t := run_times dt sampling n in
  List.length t = n /\ (forall i x, nth_error t i = Some x -> x = INR i * (dt * INR sampling) /\ x < total) /\ total - dt * INR sampling < INR n * (dt * INR sampling) <= total.
Proof.
  intros total dt sampling Hd Hs Ht n t. assert (S0 : 0 < INR sampling) by (apply lt_0_INR, Hs). assert (P : 0 < dt * INR sampling) by nra.
  set (q := total / dt / INR sampling). assert (Eq : total = q * (dt * INR sampling)) by (unfold q; field; lra). assert (Q : 0 <= q).
  { unfold q, Rdiv. apply Rmult_le_pos; [apply Rmult_le_pos; [exact Ht|left; apply Rinv_0_lt_compat, Hd]|left; apply Rinv_0_lt_compat, S0]. }
  assert (F := rfloor_bounds q). assert (FZ : (0 <= rfloor q)%Z) by (rewrite <- (rfloor_IZR 0); apply rfloor_mono; exact Q).
  assert (En : INR n = IZR (rfloor q)) by (unfold n, n_loops; fold q; rewrite INR_IZR_INZ, Z2Nat.id by exact FZ; reflexivity).
  split; [unfold t, run_times; rewrite map_length; apply seq_length|]. split; [|rewrite En, Eq; nra].
  intros i x E. unfold t, run_times in E. assert (Hi : (i < n)%nat) by (rewrite <- (seq_length n 0), <- (map_length (fun i => INR i * dt * INR sampling)); apply nth_error_Some; congruence).
  apply (nth_error_nth _ _ (INR 0 * dt * INR sampling)) in E. rewrite (map_nth (fun i => INR i * dt * INR sampling)), seq_nth in E by exact Hi. cbn [Nat.add] in E.
  split; [rewrite <- E; ring|]. rewrite <- E, Eq. assert (L : INR i + 1 <= INR n) by (rewrite <- S_INR; apply le_INR; lia). nra.
Qed.
(** The trajectory has one frame per snapshot of the run, in the order of the run; column c of frame i is the gathered vector at the position the
    structure order gives to c. *)
Theorem C53_frames : forall (X : Type) (d : X) indexing (run : list (list (nat * X))), List.length (frames d indexing run) = List.length run /\
  forall i s c k, nth_error run i = Some s -> nth_error indexing c = Some k -> (k < List.length s)%nat ->
    exists f, nth_error (frames d indexing run) i = Some f /\ List.length f = List.length indexing /\ nth_error f c = nth_error (gather d s) k.
Proof.
  intros X d indexing run. unfold frames. rewrite map_length. split; [reflexivity|]. intros i s c k Hi Hc Hk. exists (frame d indexing s).
  split; [rewrite nth_error_map; unfold snapshot; rewrite Hi; reflexivity|]. unfold frame. split; [apply map_length|]. rewrite nth_error_map, Hc. cbn [option_map].
  symmetry. apply nth_error_nth'. rewrite gather_length. exact Hk.
Qed.
Print Assumptions C53_frames.
Print Assumptions C53_column.
Print Assumptions C53_order_partial.
Print Assumptions C53_order_refuted.
Print Assumptions C53_follow_partial.
Print Assumptions C53_follow_refuted.
Print Assumptions C53_times.
(** three atoms held in the order 2, 3, 1 *)
Example C53_nonvacuous : let s := [(2, 20); (3, 30); (1, 10)]%nat in ids_ok s /\ NoDup (map snd s) /\ gather 0%nat s = [30; 10; 20]%nat /\ gather 0%nat [(2, 20); (1, 10); (3, 30)]%nat = [10; 20; 30]%nat.
Proof.
  cbn. split; [|split; [repeat constructor; cbn; intuition discriminate|split; reflexivity]]. intros i. cbn. split; [|lia]. intros H. assert (i = 1 \/ i = 2 \/ i = 3)%nat by lia. lia.
Qed.

(** C54.  With band indices every row is used: each curve is the average of the columns of its group. *)
Theorem C54_bands_partial : forall table k groups, rectangular k table -> (0 < k)%nat -> table <> [] -> (forall g, In g groups -> forall c, In c g -> (c < k)%nat) ->
  fitdata table (Some groups) = Some (map (fun r => nth 0 r 0) table, map (fun g => map (group_value g) table) groups).
Proof. intros table k groups H Hk Hn Hg. unfold fitdata. destruct table as [|r t] eqn:E; [contradiction|]. rewrite <- E in *. apply (fitdata_rows _ k); assumption. Qed.
(** Without band indices the first row is never used: the curves are those of the file without its first line, and a file with
    one line cannot be used. *)
Theorem C54_default_refuted : forall row table k, rectangular (S k) (row :: table) ->
  fitdata (row :: table) None = match table with [] => None | _ => Some (map (fun r => nth 0 r 0) table, map (fun c => map (fun r => nth c r 0) table) (seq 1 k)) end.
Proof.
  intros row table k H. unfold fitdata. cbv iota. cbn [tl]. destruct table as [|r t] eqn:E; [reflexivity|]. rewrite <- E in *.
  assert (L : List.length row = S k) by (apply H; left; reflexivity). rewrite L. replace (S k - 1)%nat with k by lia.
  assert (Hr : rectangular (S k) table) by (intros x Hx; apply H; right; exact Hx).
  rewrite (fitdata_rows table (S k)).
  - f_equal. f_equal. rewrite map_map. apply map_ext. intros c. apply map_ext. intros x. unfold group_value. cbn. field.
  - exact Hr.
  - lia.
  - rewrite E. discriminate.
  - intros g Hg c Hc. apply in_map_iff in Hg. destruct Hg as (i & <- & Hi). apply in_seq in Hi. destruct Hc as [<-|[]]. lia.
Qed.
(** So for every file the number of fitted points is one less than the number of rows. *)
Theorem C54_lost_row_refuted : forall table k f curves, rectangular (S k) table -> fitdata table None = Some (f, curves) -> S (List.length f) = List.length table /\ forall c, In c curves -> S (List.length c) = List.length table.
Proof.
  intros [|row table] k f curves H E; [discriminate|]. rewrite (C54_default_refuted row table k H) in E. destruct table as [|r t] eqn:Et; [discriminate|]. rewrite <- Et in *. injection E as <- <-. cbn [List.length]. split; [f_equal; apply map_length|].
  intros c Hc. apply in_map_iff in Hc. destruct Hc as (j & <- & _). f_equal. apply map_length.
Qed.
Print Assumptions C54_bands_partial.
Print Assumptions C54_default_refuted.
Print Assumptions C54_lost_row_refuted.
Example C54_nonvacuous : let t := [[0; 5; 7]; [1; 6; 8]] in rectangular 3 t /\ fitdata t None = Some ([1], [[6]; [8]]).
Proof.
  cbn zeta. assert (H : rectangular 3 [[0; 5; 7]; [1; 6; 8]]) by (intros r [<-|[<-|[]]]; reflexivity). split; [exact H|]. rewrite (C54_default_refuted _ _ 2 H). reflexivity.
Qed.
