(** C43: the atom order found by get_correct_arrangement. *)
From Verif Require Import TemplateModel TemplateSpec TemplateProofs SupercellModel SupercellSpec SupercellProofs ParsersSpec ParsersTemplate.
From Coq Require Import Permutation Sorted List.
Open Scope R_scope.

(** The template never holds a value twice and has one entry per atom, so sorting it always gives a permutation of the atoms of
    the file, whatever the reference coordinates are. *)
Theorem C43_distinct : forall spos scaled t, get_correct_arrangement spos scaled = Some t -> NoDup t /\ length t = length scaled.
Proof. exact arrangement_distinct. Qed.
Theorem C43_reorders : forall spos inv cell (frame : list vec) argsort t,
  get_correct_arrangement spos (scaled_coordinates inv cell frame) = Some t -> sorts t (argsort t) -> Permutation (arrange argsort (Some t) frame) frame.
Proof. intros spos inv cell frame argsort t E Hs. apply arranged; [exact Hs|]. apply arrangement_distinct in E. destruct E as [_ ->]. apply map_length. Qed.

Lemma list_max_upper l x : In x l -> x <= list_max_R l.
Proof.
  assert (G : forall l a, a <= fold_left Rmax l a /\ forall x, In x l -> x <= fold_left Rmax l a).
  { clear. induction l as [|y l IH]; intros a; cbn [fold_left]; [split; [lra|contradiction]|]. destruct (IH (Rmax a y)) as [A B]. assert (M1 := Rmax_l a y). assert (M2 := Rmax_r a y).
    split; [lra|]. intros x [->|H]; [lra|apply B, H]. }
  destruct l as [|a l]; [contradiction|]. cbn [list_max_R]. destruct (G l a) as [A B]. intros [->|H]; [exact A|apply B, H].
Qed.
Lemma list_max_in l : l <> [] -> In (list_max_R l) l.
Proof.
  assert (G : forall l a, fold_left Rmax l a = a \/ In (fold_left Rmax l a) l).
  { clear. induction l as [|y l IH]; intros a; cbn [fold_left]; [left; reflexivity|]. destruct (IH (Rmax a y)) as [E|E]; [|right; right; exact E]. rewrite E. unfold Rmax. destruct (Rle_dec a y); [right; left; reflexivity|left; reflexivity]. }
  destruct l as [|a l]; [congruence|]. intros _. cbn [list_max_R]. destruct (G l a) as [E|E]; [left; symmetry; exact E|right; exact E].
Qed.
Lemma spans_round d xs : spans d xs -> around (list_max_R xs) = Z.of_nat d.
Proof.
  intros [(x & Hx & Hlo) Hhi]. assert (U := list_max_upper _ _ Hx). assert (I := list_max_in xs ltac:(intros ->; contradiction)). assert (H := Hhi _ I).
  apply around_nearest. rewrite <- INR_IZR_INZ. lra.
Qed.

(** When the cell atoms lie in the unit cell, every place of the supercell is taken by one atom of the file, displaced by less
    than half of the distance between atoms, and the furthest coordinates tell the supercell size, the reordered frame lists at
    each position the atom whose place the structure lists there. *)
Theorem C43_correct_partial : forall spos dx dy dz sites cell inv argsort,
  (0 < dx)%nat -> (0 < dy)%nat -> (0 < dz)%nat -> (forall p, In p spos -> in_unit_cell p) ->
  (forall s, In s sites -> site_in spos dx dy dz s /\ small spos s) -> all_places sites -> length sites = (length spos * (dx * dy * dz))%nat ->
  let coordinates := map (site_coordinate spos dx dy dz) sites in
  spans dx (map vx coordinates) -> spans dy (map vy coordinates) -> spans dz (map vz coordinates) ->
  is_inverse (inv cell) cell -> (forall t, NoDup t -> sorts t (argsort t)) ->
  let frame := map (fun c => vmul c cell) coordinates in
  let structure := get_positions cell (map (fun p => vmul p cell) spos) [dx; dy; dz] in
  exists t, get_correct_arrangement spos (scaled_coordinates inv cell frame) = Some t /\
  Permutation t (map INR (seq 0 (length frame))) /\
  forall i s, nth_error sites i = Some s -> exists q,
    nth_error structure (site_index dx dy dz s) = Some q /\
    nth_error (arrange argsort (Some t) frame) (site_index dx dy dz s) = nth_error frame i /\
    nth_error frame i = Some (vadd q (vmul (offset dx dy dz s) cell)).
Proof.
  intros spos dx dy dz sites cell inv argsort Hx Hy Hz Hu Hs Hall Hl coordinates Spx Spy Spz [Hi _] Hsort frame structure.
  assert (Esc : scaled_coordinates inv cell frame = coordinates).
  { unfold scaled_coordinates, frame. rewrite map_map. rewrite <- (map_id coordinates) at 2. apply map_ext. intros c. rewrite vmul_mmul, Hi. apply vmul_mid. }
  assert (Ed : supercell_dim coordinates = (Z.of_nat dx, Z.of_nat dy, Z.of_nat dz)) by (unfold supercell_dim; rewrite !spans_round with (1 := Spx), !spans_round with (1 := Spy), !spans_round with (1 := Spz); reflexivity).
  assert (Ea := arrangement_correct spos dx dy dz sites Hx Hy Hz Hu Hs Hall Hl Ed). fold coordinates in Ea.
  assert (Hp := index_perm spos dx dy dz sites (fun s H => proj1 (Hs s H)) Hall Hl).
  assert (Lf : length frame = length sites) by (unfold frame, coordinates; rewrite !map_length; reflexivity).
  exists (map INR (map (site_index dx dy dz) sites)). rewrite Esc. split; [exact Ea|]. split; [apply Permutation_map; rewrite Lf; exact Hp|].
  intros i s Ei. assert (Hin := nth_error_In _ _ Ei). destruct (Hs s Hin) as [Hsi _].
  assert (Bi : (i < length sites)%nat) by (apply nth_error_Some; congruence).
  assert (Hp' : Permutation (map (site_index dx dy dz) sites) (seq 0 (length frame))) by (rewrite Lf; exact Hp).
  assert (Ns : nth i (map (site_index dx dy dz) sites) 0%nat = site_index dx dy dz s) by (apply nth_error_nth; rewrite nth_error_map, Ei; reflexivity).
  assert (A := arranged_at argsort _ frame i Hp' (Hsort _ (proj1 (arrangement_distinct _ _ _ Ea))) ltac:(rewrite Lf; exact Bi)). rewrite Ns in A.
  assert (G := get_positions_nth cell (map (fun p => vmul p cell) spos) dx dy dz (site_index dx dy dz s) Hx Hy Hz).
  rewrite map_length in G. specialize (G (site_index_bound spos dx dy dz s Hsi)). destruct Hsi as (Sx & Sy & Sz & Sk).
  unfold site_index in G at 1. rewrite dynaphopy_order_encode in G by assumption. destruct G as (_ & _ & _ & _ & q0 & Eq & Gq).
  rewrite nth_error_map in Eq. destruct (nth_error spos (k s)) as [p|] eqn:Ep; [|discriminate]. injection Eq as <-.
  exists (image cell (vmul p cell) (lx s) (ly s) (lz s)). split; [exact Gq|]. split; [exact A|].
  unfold frame, coordinates. rewrite !nth_error_map, Ei. cbn [option_map]. f_equal. unfold site_coordinate. rewrite (nth_error_nth _ _ vzero Ep).
  unfold offset, image. apply vec_eq; unfold vmul, vadd, vscale; cbn [vx vy vz]; ring.
Qed.

(** Refuted as stated: the template is not always a permutation of the atom numbers.  A two-atom cell simulated without
    replication, whose second atom the simulation wrote m cells further along z, gives the template [0, 2]. *)
Lemma argmin_pair (a b : R) : a <= b -> argmin [a; b] = 0%nat.
Proof. intros H. apply argmin_spec; cbn [length]; [lia|intros j Hj; lia|]. intros [|[|j]] Hj; cbn [nth]; [lra|exact H|lia]. Qed.
Lemma argmin_pair' (a b : R) : b < a -> argmin [a; b] = 1%nat.
Proof. intros H. apply argmin_spec; cbn [length]; [lia|intros [|j] Hj; cbn [nth]; [exact H|lia]|]. intros [|[|j]] Hj; cbn [nth]; [lra|lra|lia]. Qed.
Lemma trunc_nonneg x n : IZR n <= x < IZR n + 1 -> (0 <= n)%Z -> trunc x = n.
Proof. intros H Hn. unfold trunc. apply IZR_le in Hn. destruct (Rle_dec 0 x); [apply rfloor_unique, H|lra]. Qed.
Definition cellA := V3 (6/10) (6/10) (1/10).
Definition cellB := V3 (6/10) (6/10) (6/10).
Lemma wd0 x : wrapped_diff x x = 0.
Proof. unfold wrapped_diff. rewrite Rminus_eq_0, Rabs_R0. destruct (Rle_dec (1/2) 0); [lra|]. destruct (Rlt_dec 0 (- (1/2))); lra. Qed.
Lemma wd_AB : wrapped_diff (1/10) (6/10) = - (1/2) /\ wrapped_diff (6/10) (1/10) = - (1/2).
Proof.
  split; unfold wrapped_diff.
  - replace (Rabs (1/10 - 6/10)) with (1/2) by (rewrite Rabs_left by lra; lra). destruct (Rle_dec (1/2) (1/2)); [|lra]. destruct (Rlt_dec (1/2 - 1) (- (1/2))); lra.
  - replace (Rabs (6/10 - 1/10)) with (1/2) by (rewrite Rabs_right by lra; lra). destruct (Rle_dec (1/2) (1/2)); [|lra]. destruct (Rlt_dec (1/2 - 1) (- (1/2))); lra.
Qed.
Theorem C43_not_permutation_refuted : forall m : nat, (1 <= m)%nat ->
  get_correct_arrangement [cellA; cellB] [cellA; V3 (6/10) (6/10) (6/10 + INR m)] = Some [0; 2] /\ ~ In 2 (map INR (seq 0 2)).
Proof.
  intros m Hm. split; [|cbn; intros [H|[H|[]]]; lra].
  assert (Pm : 1 <= INR m) by (apply (le_INR 1 m) in Hm; exact Hm).
  unfold get_correct_arrangement, supercell_dim. cbn [map list_max_R fold_left cellA cellB vx vy vz].
  rewrite (Rmax_left (6/10) (6/10)) by lra. rewrite (Rmax_right (1/10)) by lra.
  rewrite (around_nearest (6/10) 1) by lra. rewrite (around_nearest (6/10 + INR m) (Z.of_nat (S m))) by (rewrite <- INR_IZR_INZ, S_INR; lra).
  rewrite Nat2Z.id. change (Z.to_nat 1) with 1%nat. change ((0 <? 1)%Z) with true. replace (0 <? Z.of_nat (S m))%Z with true by (symmetry; apply Z.ltb_lt; lia). cbn [andb length].
  assert (T6 : trunc (6/10) = 0%Z) by (apply trunc_nonneg; lra || lia). assert (T1 : trunc (1/10) = 0%Z) by (apply trunc_nonneg; lra || lia).
  assert (Tm : trunc (6/10 + INR m) = Z.of_nat m) by (apply trunc_nonneg; [rewrite <- INR_IZR_INZ; lra|lia]).
  destruct wd_AB as [W1 W2].
  assert (N0 : vnorm (V3 0 0 0) = 0) by (rewrite vnorm_sq; replace (0 * 0 + 0 * 0 + 0 * 0) with 0 by ring; apply sqrt_0).
  assert (N1 : 0 < vnorm (V3 0 0 (- (1/2)))) by (rewrite vnorm_sq; apply sqrt_lt_R0; lra).
  assert (KA : cell_atom [cellA; cellB] cellA = 0%nat).
  { unfold cell_atom. cbn [map cellA cellB vx vy vz]. rewrite T6, T1, !Rminus_0_r, !wd0, W1, N0. apply argmin_pair. lra. }
  assert (KB : cell_atom [cellA; cellB] (V3 (6/10) (6/10) (6/10 + INR m)) = 1%nat).
  { unfold cell_atom. cbn [map cellA cellB vx vy vz]. rewrite T6, Tm, !Rminus_0_r, <- INR_IZR_INZ. replace (6/10 + INR m - INR m) with (6/10) by ring. rewrite !wd0, W2, N0. apply argmin_pair'. lra. }
  assert (L0 : forall d, (0 < d)%nat -> lattice_point d 0 = 0).
  { intros d Hd. apply (le_INR 1 d) in Hd. cbn in Hd. unfold lattice_point. destruct (Rlt_dec (INR d - 1/2) 0); [lra|]. destruct (Rlt_dec 0 (- (1/2))); lra. }
  assert (Lm : lattice_point (S m) (INR m) = INR m).
  { unfold lattice_point. rewrite S_INR. destruct (Rlt_dec (INR m + 1 - 1/2) (INR m)); [lra|]. destruct (Rlt_dec (INR m) (- (1/2))); lra. }
  assert (O0 : dynaphopy_order 0 1 1 (S m) = (0, 0, 0, 0)%nat) by (apply (dynaphopy_order_encode 1 1 (S m) 0 0 0 0); lia).
  assert (O1 : dynaphopy_order 1 1 1 (S m) = (0, 0, 1, 0)%nat) by (apply (dynaphopy_order_encode 1 1 (S m) 0 0 1 0); lia).
  assert (Sm : 0 < INR (S m)) by (rewrite S_INR; lra).
  assert (EA : template_entry [cellA; cellB] 1 1 (S m) 2 cellA = 0).
  { unfold template_entry. rewrite KA. cbn [nth length seq map cellA vx vy vz]. rewrite !Rminus_eq_0, !L0 by lia. unfold conf_distance. rewrite O0, O1. cbn [vx vy vz INR].
    rewrite argmin_pair; [cbn [INR]; unfold Rdiv; ring|]. rewrite !vnorm_sq. apply sqrt_le_1_alt. unfold Rdiv. rewrite Rmult_0_l.
    set (q := 1 * / _). nra. }
  assert (EB : template_entry [cellA; cellB] 1 1 (S m) 2 (V3 (6/10) (6/10) (6/10 + INR m)) = 2).
  { unfold template_entry. rewrite KB. cbn [nth length seq map cellB vx vy vz]. rewrite !Rminus_eq_0, !L0 by lia. replace (6/10 + INR m - 6/10) with (INR m) by ring. rewrite Lm.
    unfold conf_distance. rewrite O0, O1. cbn [vx vy vz]. change (INR 0) with 0. change (INR 1) with 1.
    rewrite argmin_pair'; [cbn [INR]; unfold Rdiv; lra|]. rewrite !vnorm_sq. apply sqrt_lt_1_alt. 
    set (i := INR (S m)) in *. assert (Pi : 0 < / i) by (apply Rinv_0_lt_compat; exact Sm). unfold Rdiv. set (q := / i) in *. clearbody q i. assert (0 < (2 * INR m - 1) * (q * q)) by (apply Rmult_lt_0_compat; [lra|nra]).
    replace (0 * / 1 - 0 * / 1) with 0 by ring. split; [assert (X := Rle_0_sqr (INR m * q - 1 * q)); unfold Rsqr in X; lra|]. lra. }
  unfold cellA, cellB in EA, EB |- *.
  rewrite EA, EB. assert (D : has_duplicate [0; 2] = false).
  { apply has_duplicate_false. constructor; [intros [F|[]]; lra|]. constructor; [intros []|constructor]. }
  rewrite D. reflexivity.
Qed.

(** Refuted: undisplaced atoms are not always put in order.  With a cell of one atom at the origin replicated n times (n >= 2), no
    coordinate reaches n, the supercell size is taken as n - 1, opposite faces collide, and the file order is kept whatever it is. *)
Definition lattice_site (p : nat * nat * nat) : vec := let '(x, y, z) := p in V3 (INR x) (INR y) (INR z).
Theorem C43_origin_refuted : forall (n : nat) (order : list (nat * nat * nat)), (2 <= n)%nat ->
  (forall x y z, In (x, y, z) order <-> (x < n /\ y < n /\ z < n)%nat) ->
  get_correct_arrangement [vzero] (map lattice_site order) = Some (map INR (seq 0 (length order))).
Proof.
  intros n order Hn Hall. set (scaled := map lattice_site order).
  assert (Mx : forall (pr : vec -> R), (forall v, In v scaled -> exists a, pr v = INR a /\ (a <= n - 1)%nat) -> (exists v, In v scaled /\ pr v = INR (n - 1)) -> around (list_max_R (map pr scaled)) = Z.of_nat (n - 1)).
  { intros pr H1 (v & Hv & Ev). assert (U := list_max_upper (map pr scaled) (INR (n - 1)) ltac:(rewrite <- Ev; apply in_map, Hv)).
    assert (I := list_max_in (map pr scaled) ltac:(intros E; apply (in_map pr) in Hv; rewrite E in Hv; contradiction)). apply in_map_iff in I. destruct I as (w & Ew & Hw).
    destruct (H1 w Hw) as (a & Ea & La). apply le_INR in La. replace (list_max_R (map pr scaled)) with (INR (n - 1)) by lra. rewrite INR_IZR_INZ. apply around_IZR. }
  assert (Ed : supercell_dim scaled = (Z.of_nat (n - 1), Z.of_nat (n - 1), Z.of_nat (n - 1))).
  { assert (Far : In (lattice_site (n - 1, n - 1, n - 1)%nat) scaled) by (apply in_map; apply Hall; lia).
    assert (Near : forall v, In v scaled -> exists x y z, v = lattice_site (x, y, z) /\ (x <= n - 1 /\ y <= n - 1 /\ z <= n - 1)%nat).
    { intros v Hv. apply in_map_iff in Hv. destruct Hv as ([[x y] z] & <- & Hv). exists x, y, z. split; [reflexivity|]. apply Hall in Hv. lia. }
    unfold supercell_dim. f_equal; [f_equal|]; apply Mx; first [intros v Hv; destruct (Near v Hv) as (x & y & z & -> & B); cbn; eauto; (exists x + exists y + exists z); split; [reflexivity|lia] | eexists; split; [exact Far|reflexivity]]. }
  unfold get_correct_arrangement. rewrite Ed, !Nat2Z.id. replace (0 <? Z.of_nat (n - 1))%Z with true by (symmetry; apply Z.ltb_lt; lia). cbn [andb].
  set (e := template_entry _ _ _ _ _). 
  assert (Same : e (lattice_site (0, 0, 0)%nat) = e (lattice_site (n - 1, 0, 0)%nat)).
  { assert (K : forall c, cell_atom [vzero] c = 0%nat) by (intros; reflexivity). unfold e, template_entry. rewrite !K. cbn [nth vzero vx vy vz lattice_site]. rewrite !Rminus_0_r.
    assert (Lp : lattice_point (n - 1) (INR (n - 1)) = lattice_point (n - 1) (INR 0)).
    { assert (P := le_INR 1 (n - 1) ltac:(lia)). change (INR 1) with 1 in P. change (INR 0) with 0. unfold lattice_point. destruct (Rlt_dec (INR (n - 1) - 1/2) (INR (n - 1))); [|lra]. destruct (Rlt_dec (INR (n - 1) - 1/2) 0); [lra|]. rewrite Rminus_eq_0. reflexivity. }
    rewrite Lp. reflexivity. }
  assert (D : has_duplicate (map e scaled) = true).
  { destruct (has_duplicate (map e scaled)) eqn:D; [reflexivity|exfalso]. apply has_duplicate_false in D.
    assert (I1 : In (0, 0, 0)%nat order) by (apply Hall; lia). assert (I2 : In (n - 1, 0, 0)%nat order) by (apply Hall; lia).
    apply In_nth_error in I1, I2. destruct I1 as [i I1]. destruct I2 as [j I2].
    assert (i <> j) by (intros ->; rewrite I1 in I2; injection I2; lia). apply H. apply (proj1 (NoDup_nth_error _) D).
    - apply nth_error_Some. unfold scaled. rewrite !nth_error_map, I1. discriminate.
    - unfold scaled. rewrite !nth_error_map, I1, I2. cbn [option_map]. f_equal. exact Same. }
  rewrite D. unfold scaled. rewrite !map_length. reflexivity.
Qed.

(** a sort as numpy.argsort does it exists *)
Lemma insert_sorted (key : nat -> R) x p : StronglySorted (fun i j => key i <= key j) p -> exists q, Permutation q (x :: p) /\ StronglySorted (fun i j => key i <= key j) q.
Proof.
  induction p as [|y p IH]; intros H; [exists [x]; split; [reflexivity|repeat constructor]|].
  inversion H as [|? ? Hp Hy]; subst. destruct (Rle_dec (key x) (key y)) as [F|F].
  - exists (x :: y :: p). split; [reflexivity|]. constructor; [exact H|]. constructor; [exact F|]. eapply Forall_impl; [|exact Hy]. cbn. intros a Ha. lra.
  - destruct (IH Hp) as (q & Pq & Sq). exists (y :: q). split; [rewrite Pq; apply perm_swap|]. constructor; [exact Sq|]. apply (Permutation_Forall (Permutation_sym Pq)). constructor; [lra|exact Hy].
Qed.
Lemma argsort_exists (t : list R) : exists p, sorts t p.
Proof.
  assert (G : forall l, exists p, Permutation p l /\ StronglySorted (fun i j => nth i t 0 <= nth j t 0) p).
  { induction l as [|x l (p & Pp & Sp)]; [exists []; split; [reflexivity|constructor]|]. destruct (insert_sorted (fun i => nth i t 0) x p Sp) as (q & Pq & Sq). exists q. split; [rewrite Pq, Pp; reflexivity|exact Sq]. }
  destruct (G (seq 0 (length t))) as (p & Pp & Sp). exists p. split; [exact Pp|].
  assert (Lp : length p = length t) by (rewrite (Permutation_length Pp); apply seq_length). rewrite <- Lp. clear - Sp.
  induction Sp as [|x p Sp IH Hx]; intros i j Hij; cbn [length] in Hij; [lia|]. destruct j as [|j]; [lia|]. destruct i as [|i]; cbn [nth].
  - rewrite Forall_forall in Hx. apply Hx, nth_In. lia.
  - apply IH. lia.
Qed.
(** A two-atom cell repeated twice along x, read in a shuffled order. *)
Example C43_nonvacuous : let spos := [V3 (2/10) (2/10) (2/10); V3 (7/10) (7/10) (7/10)] in
  let st a b := MkSite a 0 0 b vzero false false false in
  let sites := [st 1 1; st 0 0; st 1 0; st 0 1]%nat in
  (forall p, In p spos -> in_unit_cell p) /\ (forall s, In s sites -> site_in spos 2 1 1 s /\ small spos s) /\ all_places sites /\ length sites = (length spos * (2 * 1 * 1))%nat /\
  spans 2 (map vx (map (site_coordinate spos 2 1 1) sites)) /\ spans 1 (map vy (map (site_coordinate spos 2 1 1) sites)) /\ spans 1 (map vz (map (site_coordinate spos 2 1 1) sites)) /\
  map (site_index 2 1 1) sites = [3; 0; 1; 2]%nat.
Proof.
  cbv zeta. set (spos := [_; _]).
  assert (Sm : forall s, u s = vzero -> (k s < 2)%nat -> small spos s).
  { intros s Eu Hk. unfold small. rewrite Eu. cbn [vzero vx vy vz]. rewrite Rabs_R0. repeat (split; [lra|]). intros j z Hj Hne (a & b & c & ->).
    replace (vnorm vzero) with 0 by (unfold vnorm, vnorm2, vdot; cbn; replace (0 * 0 + 0 * 0 + 0 * 0) with 0 by ring; symmetry; apply sqrt_0). rewrite Rmult_0_r.
    apply sqrt_lt_R0. unfold vnorm2, vdot.
    assert (X : forall w : vec, vx w <> 0 -> 0 < vx w * vx w + vy w * vy w + vz w * vz w) by (intros w Hw; nra). apply X.
    assert (Y : forall h : R, h = 1/2 \/ h = - (1/2) -> h + IZR a <> 0).
    { intros h Hh F. assert (E : IZR (2 * a) = 1 \/ IZR (2 * a) = -1) by (rewrite mult_IZR; destruct Hh; [right|left]; lra). destruct E as [E|E]; [apply (eq_IZR _ 1) in E|apply (eq_IZR _ (-1)) in E]; lia. }
    cbn [length spos] in Hj. destruct (k s) as [|[|kk]]; [| |lia]; (destruct j as [|[|j]]; [| |lia]); try congruence; cbn; apply Y; lra. }
  repeat split; cbn.
  all: try (intros x H; repeat (destruct H as [<-|H]; [cbn; lra|]); contradiction).
  all: try (destruct H as [<-|[<-|[]]]; cbn; lra).
  all: try (destruct H as [<-|[<-|[<-|[<-|H]]]]; [| | | |contradiction]; cbn; first [lia|lra]).
  all: try (destruct (Sm s) as (A & B & C & D); [destruct H as [<-|[<-|[<-|[<-|[]]]]]; reflexivity|destruct H as [<-|[<-|[<-|[<-|[]]]]]; cbn; lia|assumption]).
  - intros i j s t Hi Hj Hst. do 4 (destruct i as [|i]; [do 4 (destruct j as [|j]; [first [reflexivity|exfalso; cbn in Hi, Hj; injection Hi as <-; injection Hj as <-; unfold same_place in Hst; cbn in Hst; discriminate]|]); destruct j; discriminate|]). destruct i; discriminate.
  - eexists. split; [left; reflexivity|]. cbn. lra.
  - eexists. split; [left; reflexivity|]. cbn. lra.
  - eexists. split; [left; reflexivity|]. cbn. lra.
Qed.

Print Assumptions C43_distinct.
Print Assumptions C43_reorders.
Print Assumptions C43_correct_partial.
Print Assumptions C43_not_permutation_refuted.
Print Assumptions C43_origin_refuted.
