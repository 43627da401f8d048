(** C107: the automatic band path. *)
From Verif Require Import AutoPathModel.
From Coq Require Import Lia Lra.
Open Scope R_scope.

(** ---------- specification ---------- *)
(** K is the wave vector whose reduced coordinates with respect to the lattice (rows) are k: it advances the phase by 2 pi k_i along the lattice vector i *)
Definition wave_vector_of (lattice : mat) (k K : vec) : Prop :=
  vdot K (r0 lattice) = 2 * PI * vx k /\ vdot K (r1 lattice) = 2 * PI * vy k /\ vdot K (r2 lattice) = 2 * PI * vz k.
(** the coordinates given for a name *)
Definition named (d : path_data) (name : string) (k : vec) : Prop := In (name, k) (point_coords d).
(** seekpath's result: names are given once, and every name used in the path is given *)
Definition well_formed (d : path_data) : Prop :=
  NoDup (map fst (point_coords d)) /\ forall a b, In (a, b) (path d) -> (exists k, named d a k) /\ exists k, named d b k.

(** ---------- lemmas ---------- *)
Lemma wave_vector_ok inv lattice k : is_inverse (inv lattice) lattice -> wave_vector_of lattice k (get_q_vector inv lattice k).
Proof.
  intros [H _]. assert (E : forall w, vdot (get_q_vector inv lattice k) (vmul w lattice) = 2 * PI * vdot k w).
  { intros w. rewrite <- (vmul_mid w) at 2. rewrite <- H, <- vmul_mmul. unfold get_q_vector. destruct (inv lattice) as [a b c]. generalize (vmul w lattice). intros u. vec_unfold. ring. }
  split; [|split].
  - specialize (E (V3 1 0 0)). replace (vmul (V3 1 0 0) lattice) with (r0 lattice) in E by (vec_ring). rewrite E. unfold vdot. cbn [vx vy vz]. ring.
  - specialize (E (V3 0 1 0)). replace (vmul (V3 0 1 0) lattice) with (r1 lattice) in E by (vec_ring). rewrite E. unfold vdot. cbn [vx vy vz]. ring.
  - specialize (E (V3 0 0 1)). replace (vmul (V3 0 0 1) lattice) with (r2 lattice) in E by (vec_ring). rewrite E. unfold vdot. cbn [vx vy vz]. ring.
Qed.
Lemma lookup_in k d v : lookup k d = Some v -> In (k, v) d.
Proof. induction d as [|[t w] d IH]; cbn [lookup]; [discriminate|]. destruct (String.eqb k t) eqn:E; [apply String.eqb_eq in E; subst; intros H; injection H as ->; left; reflexivity|]. intros H. right. auto. Qed.
Lemma lookup_some k d v : NoDup (map fst d) -> In (k, v) d -> lookup k d = Some v.
Proof.
  induction d as [|[t w] d IH]; cbn [lookup map]; intros N H; [destruct H|]. inversion N as [|x y H1 H2]; subst. destruct H as [H|H].
  - injection H as -> ->. rewrite String.eqb_refl. reflexivity.
  - destruct (String.eqb k t) eqn:E; [|apply IH; assumption]. apply String.eqb_eq in E; subst. exfalso. apply H1. apply (in_map fst) in H. exact H.
Qed.
Lemma band_ranges_ok d l : NoDup (map fst d) -> (forall a b, In (a, b) l -> (exists k, In (a, k) d) /\ exists k, In (b, k) d) ->
  exists r, band_ranges d l = Some r /\ List.length r = List.length l /\ forall i a b, nth_error l i = Some (a, b) -> exists p q, nth_error r i = Some (p, q) /\ In (a, p) d /\ In (b, q) d.
Proof.
  intros N. induction l as [|[a b] l IH]; intros H.
  - exists []. repeat split. intros [|i] a b E; discriminate.
  - destruct (H a b (or_introl eq_refl)) as [[p Hp] [q Hq]]. destruct IH as (r & E & L & P). { intros x y Hx. apply H. right. exact Hx. }
    exists ((p, q) :: r). cbn [band_ranges fst snd]. rewrite (lookup_some _ _ _ N Hp), (lookup_some _ _ _ N Hq), E. split; [reflexivity|]. split; [cbn; congruence|].
    intros [|i] x y Hi; cbn [nth_error] in *; [injection Hi as <- <-; exists p, q; auto|]. apply P. exact Hi.
Qed.
Lemma insert_in s l x : In x (insert s l) <-> x = s \/ In x l.
Proof.
  induction l as [|t l IH]; cbn [insert].
  - cbn. firstorder congruence.
  - destruct (String.compare s t) eqn:E.
    + apply String.compare_eq_iff in E. subst. cbn. firstorder congruence.
    + cbn. firstorder congruence.
    + cbn. rewrite IH. firstorder congruence.
Qed.
Lemma unique_in l x : In x (unique l) <-> In x l.
Proof. induction l as [|s l IH]; [reflexivity|]. cbn [unique fold_right]. fold (unique l). rewrite insert_in, IH. cbn. firstorder congruence. Qed.
Lemma place_ok s l : In s l -> nth_error l (place s l) = Some s.
Proof. induction l as [|t l IH]; intros H; [destruct H|]. cbn [place]. destruct (String.eqb s t) eqn:E; [apply String.eqb_eq in E; subst; reflexivity|]. cbn. apply IH. destruct H as [H|H]; [subst; rewrite String.eqb_refl in E; discriminate|exact H]. Qed.

(** ---------- theorems ---------- *)
(** seekpath is given the cell, the fractional positions of the atoms and numbers that are equal exactly for atoms of the same element *)
Theorem C107_crystal_given : forall inv cell positions elements, is_inverse (inv cell) cell ->
  exists scaled species, query inv cell positions elements = (cell, scaled, species) /\
  map (fun u => vmul u cell) scaled = positions /\ List.length species = List.length elements /\
  forall i j a b, nth_error elements i = Some a -> nth_error elements j = Some b -> (nth_error species i = nth_error species j <-> a = b).
Proof.
  intros inv cell positions elements [H1 H2]. eexists _, _. split; [reflexivity|]. split; [|split].
  - rewrite map_map. rewrite <- (map_id positions) at 2. apply map_ext. intros p. rewrite vmul_mmul, H2. apply vmul_mid.
  - apply map_length.
  - intros i j a b Ha Hb. unfold inverse. rewrite (map_nth_error _ _ _ Ha), (map_nth_error _ _ _ Hb). split; [|congruence]. intros E. assert (E' : place a (unique elements) = place b (unique elements)) by congruence.
    assert (A := place_ok a (unique elements) (proj2 (unique_in _ _) (nth_error_In _ _ Ha))). assert (B := place_ok b (unique elements) (proj2 (unique_in _ _) (nth_error_In _ _ Hb))). rewrite E' in A. congruence.
Qed.
Print Assumptions C107_crystal_given.
(** every stretch of the path runs between the coordinates given for its two labels, in the order of the path *)
Theorem C107_stretches_and_labels : forall inv get_path cell positions elements, let d := get_path (query inv cell positions elements) in well_formed d ->
  exists b, get_path_using_seek_path inv (Some get_path) cell positions elements = Some b /\ labels b = path d /\ List.length (ranges b) = List.length (path d) /\
  forall i n m, nth_error (path d) i = Some (n, m) -> exists p q, nth_error (ranges b) i = Some (p, q) /\ named d n p /\ named d m q.
Proof.
  intros inv get_path cell positions elements d [N W]. destruct (band_ranges_ok (point_coords d) (path d) N W) as (r & E & L & P).
  exists (MkBands r (path d)). cbn [labels ranges]. split; [|auto]. unfold get_path_using_seek_path. fold d. rewrite E. reflexivity.
Qed.
Print Assumptions C107_stretches_and_labels.
(** when the structure's primitive cell is the one seekpath's coordinates refer to, the wave vectors used are the named points *)
Theorem C107_named_points_partial : forall inv get_path cell pmat positions elements, let d := get_path (query inv cell positions elements) in well_formed d ->
  (forall m, mdet m <> 0 -> is_inverse (inv m) m) -> mdet (primitive_lattice d) <> 0 -> primitive_cell cell pmat = primitive_lattice d ->
  exists b, get_path_using_seek_path inv (Some get_path) cell positions elements = Some b /\
  forall i n m, nth_error (labels b) i = Some (n, m) -> exists p q, nth_error (ranges b) i = Some (p, q) /\
  forall kn km, named d n kn -> named d m km ->
  wave_vector_of (primitive_lattice d) kn (program_wave_vector inv cell pmat p) /\ wave_vector_of (primitive_lattice d) km (program_wave_vector inv cell pmat q).
Proof.
  intros inv get_path cell pmat positions elements d W Hinv Hd Hc. destruct (C107_stretches_and_labels inv get_path cell positions elements W) as (b & E & Lb & _ & P). fold d in Lb, P. exists b. split; [exact E|].
  intros i n m H. rewrite Lb in H. destruct (P i n m H) as (p & q & Hr & Hp & Hq). exists p, q. split; [exact Hr|]. intros kn km Hn Hm.
  assert (kn = p) by (assert (A := lookup_some _ _ _ (proj1 W) Hn); assert (B := lookup_some _ _ _ (proj1 W) Hp); congruence).
  assert (km = q) by (assert (A := lookup_some _ _ _ (proj1 W) Hm); assert (B := lookup_some _ _ _ (proj1 W) Hq); congruence). subst kn km.
  unfold program_wave_vector. rewrite Hc. split; apply wave_vector_ok, Hinv; exact Hd.
Qed.
Print Assumptions C107_named_points_partial.
(** otherwise they are not: in a face centred cubic crystal described by its cubic cell, with the default primitive matrix (identity), the stretch labelled
    GAMMA - X ends at the point (1/2, 0, 1/2) of the cubic reciprocal lattice, which is not X, for every lattice parameter *)
Definition cubic (a : R) : mat := M3 (V3 a 0 0) (V3 0 a 0) (V3 0 0 a).
Definition fcc (a : R) : mat := M3 (V3 0 (a/2) (a/2)) (V3 (a/2) 0 (a/2)) (V3 (a/2) (a/2) 0).
Theorem C107_conventional_cell_refuted : forall inv get_path a positions elements, a > 0 ->
  is_inverse (inv (cubic a)) (cubic a) ->
  let d := get_path (query inv (cubic a) positions elements) in
  point_coords d = [("GAMMA"%string, V3 0 0 0); ("X"%string, V3 (1/2) 0 (1/2))] -> path d = [("GAMMA", "X")]%string -> primitive_lattice d = fcc a ->
  exists b p q, get_path_using_seek_path inv (Some get_path) (cubic a) positions elements = Some b /\
  labels b = [("GAMMA", "X")]%string /\ ranges b = [(p, q)] /\
  program_wave_vector inv (cubic a) mid q = V3 (PI / a) 0 (PI / a) /\
  wave_vector_of (fcc a) (V3 (1/2) 0 (1/2)) (V3 0 (2 * PI / a) 0) /\
  ~ wave_vector_of (fcc a) (V3 (1/2) 0 (1/2)) (program_wave_vector inv (cubic a) mid q).
Proof.
  intros inv get_path a positions elements Ha Hi d Hc Hp Hl. exists (MkBands [(V3 0 0 0, V3 (1/2) 0 (1/2))] [("GAMMA", "X")]%string), (V3 0 0 0), (V3 (1/2) 0 (1/2)).
  split; [unfold get_path_using_seek_path; fold d; rewrite Hc, Hp; reflexivity|]. split; [reflexivity|]. split; [reflexivity|].
  assert (Ei : inv (cubic a) = cubic (/ a)). { apply (is_inverse_unique _ _ (cubic a) Hi). split; unfold cubic; vec_ring; try (field; lra). }
  assert (Ep : primitive_cell (cubic a) mid = cubic a) by (unfold primitive_cell, cubic; vec_ring).
  assert (E : program_wave_vector inv (cubic a) mid (V3 (1 / 2) 0 (1 / 2)) = V3 (PI / a) 0 (PI / a)).
  { unfold program_wave_vector. rewrite Ep. unfold get_q_vector. rewrite Ei. unfold cubic. vec_ring; field; lra. }
  split; [exact E|]. split.
  - unfold wave_vector_of, fcc, vdot. cbn [r0 r1 r2 vx vy vz]. repeat split; field; lra.
  - rewrite E. unfold wave_vector_of, fcc, vdot. cbn [r0 r1 r2 vx vy vz]. intros (_ & H & _). assert (P := PI_RGT_0). assert (PI / a * (a / 2) + 0 * 0 + PI / a * (a / 2) = PI) by (field; lra). lra.
Qed.
Print Assumptions C107_conventional_cell_refuted.
(** without seekpath the path is the single stretch from GAMMA to the point its label says *)
Theorem C107_without_seekpath : forall inv cell positions elements,
  get_path_using_seek_path inv None cell positions elements = Some (MkBands [(V3 0 0 0, V3 (1/2) 0 (1/2))] [("GAMMA", "1/2,0,1/2")%string]).
Proof. reflexivity. Qed.
Print Assumptions C107_without_seekpath.

Example C107_nonvacuous : let d := MkPath [("GAMMA"%string, V3 0 0 0); ("X"%string, V3 (1/2) 0 (1/2))] [("GAMMA", "X")]%string (fcc 4) in
  well_formed d /\ mdet (primitive_lattice d) <> 0 /\ primitive_cell (cubic 4) (M3 (V3 0 (1/2) (1/2)) (V3 (1/2) 0 (1/2)) (V3 (1/2) (1/2) 0)) = primitive_lattice d /\
  inverse ["Na"; "Cl"; "Na"]%string = [1; 0; 1]%nat.
Proof.
  split; [|split; [|split; [|reflexivity]]].
  - split.
    + cbn. repeat constructor; cbn; intuition discriminate.
    + intros a b H. cbn in H. destruct H as [H|H]; [|destruct H]. injection H as <- <-. split; eexists; unfold named; cbn; [left|right; left]; reflexivity.
  - unfold mdet, fcc. cbn. lra.
  - unfold primitive_cell, cubic, fcc. cbn [primitive_lattice]. vec_ring; lra.
Qed.
