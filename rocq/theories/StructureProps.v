(** C04-C06: what a Structure object remembers. *)
From Verif Require Import StructureModel StructureSpec StructureProofs.
Open Scope nat_scope.

(** Full statement false: whatever the structure, once it holds cartesian positions p (given to
    the constructor or cached by a query), set_positions(x) is not seen by get_positions(). *)
Theorem C04_set_positions_refuted :
  forall (inv : mat -> mat) cell masses p x scaled pmat, p <> x ->
  exists s1 s2 s3,
  srun inv [GetPositions None] (new_structure cell masses (Some p) scaled pmat) = Some s1 /\
  set_positions inv x s1 = Some (tt, s2) /\
  get_positions_of None s2 = Some (p, s3).
Proof. exact set_positions_stale. Qed.
Print Assumptions C04_set_positions_refuted.

(** It is seen as long as no cartesian positions were given or queried before. *)
Theorem C04_set_positions_partial :
  forall (inv : mat -> mat) cell masses scaled pmat h x s1 s2,
  forallb no_cartesian h = true ->
  srun inv h (new_structure cell masses None (Some scaled) pmat) = Some s1 ->
  is_inverse (inv (s_cell s1)) (s_cell s1) ->
  set_positions inv x s1 = Some (tt, s2) ->
  exists s3, get_positions_of None s2 = Some (x, s3).
Proof. exact set_positions_visible_partial. Qed.
Print Assumptions C04_set_positions_partial.

(** The scaled positions are always updated. *)
Theorem C04_scaled_positions_updated :
  forall (inv : mat -> mat) s x s', set_positions inv x s = Some (tt, s') ->
  get_scaled inv s' = Some (map (fun p => vmul p (inv (s_cell s))) x, s').
Proof. exact set_get_scaled. Qed.
Print Assumptions C04_scaled_positions_updated.

Example C04_nonvacuous : exists s1, srun (fun m => m) [SetPositions [V3 1 2 3]; GetPrimitiveCell; GetScaled]
  (new_structure mid [1%R] None (Some [V3 0 0 0]) None) = Some s1 /\ is_inverse (s_cell s1) (s_cell s1).
Proof. eexists; split; [reflexivity|]. simpl. split; apply mmul_id_l. Qed.

(** C05 for a query without supercell (the first query decides, see the refutation). *)
Theorem C05_atom_types_partial :
  forall (inv : mat -> mat) cell masses p P, length masses = length p ->
  exists t s', get_types inv None (new_structure cell masses (Some p) None (Some P)) = Some (t, s') /\
  length t = length p /\
  value (get_ntypes inv) s' = Some (count_distinct t) /\
  (forall v, In v t <-> v < count_distinct t) /\
  (p <> [] -> nth 0 t 0 = 0) /\
  (forall i j, i < length p -> j < length p -> nth i t 0 = nth j t 0 -> nth i masses 0%R = nth j masses 0%R) /\
  let site i j := same_site inv (mT (mmul (mT cell) P)) (nth i p vzero) (nth j p vzero) in
  ((forall i j k, i < length p -> j < length p -> k < length p -> site i j = true -> site j k = true -> site i k = true) ->
   (forall i j, i < length p -> j < length p -> site i j = site j i) ->
   (forall i, i < length p -> site i i = true) ->
   forall i j, i < length p -> j < length p ->
   (nth i t 0 = nth j t 0 <-> site i j = true /\ nth i masses 0%R = nth j masses 0%R)).
Proof. exact types_api_spec. Qed.
Print Assumptions C05_atom_types_partial.

(** For a crystal (atoms either exactly related by primitive translations or well separated
    from every such image) types are exactly the classes "lattice equivalent and same mass". *)
Theorem C05_crystal_types_partial :
  forall (inv : mat -> mat) cell masses p P, length masses = length p ->
  let pc := mmul (mT P) cell in
  is_inverse (inv pc) pc ->
  (forall i j, i < length p -> j < length p ->
     lattice_equivalent pc (nth i p vzero) (nth j p vzero) \/ lattice_separated pc (nth i p vzero) (nth j p vzero)) ->
  exists t s', get_types inv None (new_structure cell masses (Some p) None (Some P)) = Some (t, s') /\
  length t = length p /\
  forall i j, i < length p -> j < length p ->
  (nth i t 0 = nth j t 0 <->
   lattice_equivalent pc (nth i p vzero) (nth j p vzero) /\ nth i masses 0%R = nth j masses 0%R).
Proof. exact types_crystal. Qed.
Print Assumptions C05_crystal_types_partial.

Example C05_nonvacuous : let p := [V3 0 0 0; V3 1 0 0] in
  forall i j, i < length p -> j < length p ->
     lattice_equivalent mid (nth i p vzero) (nth j p vzero) \/ lattice_separated mid (nth i p vzero) (nth j p vzero).
Proof.
  intros p i j Hi Hj. left. simpl in Hi, Hj.
  destruct i as [|[|i]], j as [|[|j]]; try lia; simpl.
  - apply lattice_equivalent_refl.
  - exists 1%Z, 0%Z, 0%Z. apply vec_eq; vec_unfold; ring.
  - exists (-1)%Z, 0%Z, 0%Z. apply vec_eq; vec_unfold; ring.
  - apply lattice_equivalent_refl.
Qed.

(** If the first query asks for a supercell, the mass test uses the expanded mass list with
    unit-cell indices: atoms of different mass get one type, and later queries keep it. *)
Theorem C05_first_query_refuted :
  forall (inv : mat -> mat), is_inverse (inv mid) mid ->
  exists s sc t t' s1 s2 s3,
    s_masses s = [1%R; 2%R] /\
    get_types inv None s = Some (t, s1) /\ t = [0; 1] /\
    get_types inv (Some sc) s = Some (t', s2) /\
    get_types inv None s2 = Some ([0; 0], s3).
Proof. exact types_supercell_first. Qed.
Print Assumptions C05_first_query_refuted.

(** C06: whatever happened before. *)
Theorem C06_primitive_matrix_resets :
  forall (inv : mat -> mat) c0 m0 p0 q0 pm0 h0 s0 P s1 h s2,
  srun inv h0 (new_structure c0 m0 p0 q0 pm0) = Some s0 ->
  sstep inv (SetPrimitive P) s0 = Some s1 ->
  forallb plain_getter h = true -> srun inv h s1 = Some s2 ->
  let fresh := new_structure (s_cell s0) (s_masses s0) (s_positions s0) (s_scaled s0) (Some P) in
  value (get_pcell inv) s2 = Some (mmul (mT P) (s_cell s0)) /\
  value (get_pcell inv) s2 = value (get_pcell inv) fresh /\
  value (get_types inv None) s2 = value (get_types inv None) fresh /\
  value (get_ntypes inv) s2 = value (get_ntypes inv) fresh /\
  value (get_nprim inv) s2 = value (get_nprim inv) fresh.
Proof. exact set_primitive_fresh. Qed.
Print Assumptions C06_primitive_matrix_resets.

(** C109: set_cell does not reset the primitive cell: once it has been asked for, the old one is returned for ever. *)
Theorem C109_set_cell_refuted :
  forall (inv : mat -> mat) cell cell' P masses p, mmul (mT P) cell <> mmul (mT P) cell' ->
  exists s1, srun inv [GetPrimitiveCell; SetCell cell'] (new_structure cell masses (Some p) None (Some P)) = Some s1 /\
  value (get_pcell inv) s1 = Some (mmul (mT P) cell) /\
  value (get_pcell inv) s1 <> value (get_pcell inv) (new_structure cell' masses (Some p) None (Some P)).
Proof. exact set_cell_stale_primitive. Qed.
Print Assumptions C109_set_cell_refuted.
(** It is right when the primitive cell and the atom types were never asked for ... *)
Definition before_primitive (o : sop) : bool :=
  match o with GetPrimitiveCell | GetTypes _ | GetNumberOfTypes | GetNumberOfPrimitive => false | _ => true end.
Theorem C109_set_cell_first_partial :
  forall (inv : mat -> mat) c0 m0 p0 q0 P h0 s0 c s1,
  forallb before_primitive h0 = true -> forallb (fun o => match o with SetPrimitive _ => false | _ => true end) h0 = true ->
  srun inv h0 (new_structure c0 m0 p0 q0 (Some P)) = Some s0 -> sstep inv (SetCell c) s0 = Some s1 ->
  value (get_pcell inv) s1 = Some (mmul (mT P) c).
Proof.
  intros inv c0 m0 p0 q0 P h0 s0 c s1 Hb Hs R0 S1.
  assert (G : forall h s s', forallb before_primitive h = true -> forallb (fun o => match o with SetPrimitive _ => false | _ => true end) h = true ->
      s_pcell s = None -> s_pmat s = Some P -> srun inv h s = Some s' -> s_pcell s' = None /\ s_pmat s' = Some P).
  { clear. induction h as [|o h IH]; intros s s' Hb Hs E F R; [injection R as <-; auto|]. cbn [forallb] in *. apply andb_prop in Hb as [Ob Hb], Hs as [Os Hs].
    cbn [srun] in R. destruct (sstep inv o s) as [s1|] eqn:E1; [|discriminate]. apply (IH s1 s'); try assumption.
    all: destruct o; try discriminate Ob; try discriminate Os; cbn in E1; unfold get_positions_of, get_scaled, get_masses, get_ncell, get_pmat, bind, fill_positions in E1;
        repeat match goal with
        | H : get_positions_of _ _ = _ |- _ => unfold get_positions_of, bind, fill_positions in H
        | H : get_masses _ _ = _ |- _ => unfold get_masses, bind, get_positions_of, fill_positions in H
        | H : get_ncell _ = _ |- _ => unfold get_ncell, bind, get_positions_of, fill_positions in H
        | H : get_scaled _ _ = _ |- _ => unfold get_scaled, bind in H
        | H : None = Some _ |- _ => discriminate H
        | H : Some _ = Some _ |- _ => injection H; clear H; intros; subst; cbn in *
        | H : context [match ?x with _ => _ end] |- _ => match type of H with _ = _ => match x with context [match _ with _ => _ end] => fail 1 | _ => destruct x eqn:? end end
        end; try assumption; try congruence; cbn; auto. }
  destruct (G h0 (new_structure c0 m0 p0 q0 (Some P)) s0 Hb Hs eq_refl eq_refl R0) as [A B]. cbn in S1. injection S1 as <-. unfold value, get_pcell, with_cell. cbn. rewrite A. unfold bind, get_pmat. cbn. rewrite B. cbn. rewrite mT_mmul, mT_mT. reflexivity.
Qed.
Print Assumptions C109_set_cell_first_partial.
(** ... or when the primitive matrix is set afterwards, whatever happened before. *)
Theorem C109_set_cell_then_matrix_partial :
  forall (inv : mat -> mat) c0 m0 p0 q0 pm0 h0 s0 c P s2,
  srun inv h0 (new_structure c0 m0 p0 q0 pm0) = Some s0 ->
  srun inv [SetCell c; SetPrimitive P] s0 = Some s2 ->
  let fresh := new_structure c (s_masses s0) (s_positions s0) (s_scaled s0) (Some P) in
  value (get_pcell inv) s2 = Some (mmul (mT P) c) /\
  value (get_types inv None) s2 = value (get_types inv None) fresh /\
  value (get_ntypes inv) s2 = value (get_ntypes inv) fresh /\
  value (get_nprim inv) s2 = value (get_nprim inv) fresh.
Proof.
  intros inv c0 m0 p0 q0 pm0 h0 s0 c P s2 R0 R2. cbn [srun] in R2. destruct (sstep inv (SetCell c) s0) as [s1|] eqn:E1; [|discriminate]. destruct (sstep inv (SetPrimitive P) s1) as [s2'|] eqn:E2; [|discriminate]. injection R2 as ->.
  assert (R1 : srun inv (h0 ++ [SetCell c]) (new_structure c0 m0 p0 q0 pm0) = Some s1).
  { clear - R0 E1. revert R0. generalize (new_structure c0 m0 p0 q0 pm0). induction h0 as [|o h IH]; intros s R; cbn [srun app] in *; [injection R as ->; rewrite E1; reflexivity|]. destruct (sstep inv o s); [apply IH; exact R|discriminate]. }
  destruct (C06_primitive_matrix_resets inv c0 m0 p0 q0 pm0 _ s1 P s2 [] s2 R1 E2 eq_refl eq_refl) as (A & _ & B & D & F).
  cbn in E1. injection E1 as <-. cbn [s_cell s_masses s_positions s_scaled with_cell] in *. auto.
Qed.
Print Assumptions C109_set_cell_then_matrix_partial.
Example C109_nonvacuous : exists s0 s1, srun (fun m => m) [GetPositions None; SetMasses [2%R]] (new_structure mid [1%R] (Some [V3 0 0 0]) None (Some mid)) = Some s0 /\
  sstep (fun m => m) (SetCell (mdiag 2 2 2)) s0 = Some s1.
Proof. eexists. eexists. split; [lazy -[Rminus Rdiv Rmult Rplus IZR]; reflexivity|reflexivity]. Qed.

Example C06_nonvacuous : exists s0 s1 s2,
  srun (fun m => m) [GetPrimitiveCell; SetCell mid] (new_structure mid [1%R] (Some [V3 0 0 0]) None None) = Some s0 /\
  sstep (fun m => m) (SetPrimitive mid) s0 = Some s1 /\
  forallb plain_getter [GetPrimitiveCell; GetMasses None; GetScaled] = true /\
  srun (fun m => m) [GetPrimitiveCell; GetMasses None; GetScaled] s1 = Some s2.
Proof.
  eexists. eexists. eexists. split; [lazy -[Rminus Rdiv Rmult Rplus IZR]; reflexivity|]. split; [lazy -[Rminus Rdiv Rmult Rplus IZR]; reflexivity|].
  split; [reflexivity|lazy -[Rminus Rdiv Rmult Rplus IZR]; reflexivity].
Qed.
