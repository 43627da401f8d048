(** C126: one motion stored in three formats (LAMMPS dump, XDATCAR, OUTCAR) is read as one trajectory.  Uses the models of the readers (ParsersModel) and of the
    object that holds the trajectory (DynamicsModel: the property trajectory, dynamics.py:300-311). *)
From Verif Require Import ParsersModel ParsersSpec ParsersProofs ParsersMore ParsersGeometry ParsersTemplate ParsersProps.
From Verif Require DynamicsModel DisplacementsModel DisplacementsProofs.
From Coq Require Import Lra Lia.
Open Scope R_scope.

(** ---------- specification ---------- *)
(** a motion: for every step the coordinates of the atoms relative to the vectors of the simulation cell; its positions in a cell with the rows of [m] *)
Definition in_cell (m : mat) (motion : list (list vec)) : list (list vec) := map (map (fun f => vmul f m)) motion.
(** LAMMPS' box is the simulation cell kx a1, ky a2, kz a3 of the unit cell (a1, a2, a3) in LAMMPS' own orientation *)
Definition same_shape (cell : mat) (kx ky kz : R) (m : mat) : Prop :=
  mdet m <> 0 /\ same_angles cell m /\ vnorm (r0 m) = kx * vnorm (r0 cell) /\ vnorm (r1 m) = ky * vnorm (r1 cell) /\ vnorm (r2 m) = kz * vnorm (r2 cell).
(** what get_trajectory / the property trajectory of the Dynamics object shows when the reader handed over Cartesian or relative coordinates *)
Definition shown (supercell : mat) (cartesian relative : option (list (list vec))) : option (list (list vec)) :=
  option_map fst (DynamicsModel.trajectory (map (fun f => vmul f supercell)) (DynamicsModel.new_dynamics (V := unit) (E := unit) (T := R) (M := unit) cartesian relative None None None false)).

(** ---------- proofs ---------- *)
Lemma window_map {A B} (f : A -> B) a e l : window a e (map f l) = map f (window a e l).
Proof. unfold window. destruct e; rewrite ?firstn_map, skipn_map; reflexivity. Qed.
Lemma last_map {A B} (f : A -> B) n l : last_opt n (map f l) = map f (last_opt n l).
Proof. destruct n; cbn [last_opt]; [|reflexivity]. unfold last_n. rewrite map_length, skipn_map. reflexivity. Qed.
Lemma vmul_zero m : vmul vzero m = vzero.
Proof. apply vec_eq; unfold vmul, vadd, vscale, vzero; cbn; ring. Qed.
Lemma arrange_map argsort template m f : arrange argsort template (map (fun v => vmul v m) f) = map (fun v => vmul v m) (arrange argsort template f).
Proof.
  destruct template as [t|]; cbn [arrange]; [|reflexivity]. rewrite map_map. apply map_ext. intros i.
  rewrite <- (map_nth (fun v => vmul v m)), vmul_zero. reflexivity.
Qed.
Lemma rows_scaled cell kx ky kz : mmul (mdiag kx ky kz) cell = M3 (vscale kx (r0 cell)) (vscale ky (r1 cell)) (vscale kz (r2 cell)).
Proof. unfold mmul, mdiag, vmul, vadd, vscale. cbn. f_equal; apply vec_eq; cbn; ring. Qed.

Section Statements.
Context {L T : Type} (has : string -> L -> bool) (words : L -> list T) (num : T -> option R) (int : T -> option nat)
        (after_eq : L -> option R) (kind : L -> label_kind) (argsort : list R -> list nat) (inv : mat -> mat).
Notation dump n b k := (lammps_dump has words num int n b (fun l => kind l = k)).
Notation lammps := (read_lammps has words num int kind argsort inv).
Notation xdatcar_of := (xdatcar_file has words num int (fun l t => after_eq l = Some t)).
Notation xdatcar := (read_xdatcar has words num int after_eq argsort).

Lemma turned cell kx ky kz m : (forall m, mdet m <> 0 -> is_inverse (inv m) m) -> mdet cell <> 0 -> same_shape cell kx ky kz m ->
  mmul m (transformation inv cell m) = mmul (mdiag kx ky kz) cell.
Proof.
  intros Hinv Hc (Hm & Ha & N0 & N1 & N2). rewrite (rotated inv Hinv cell m Hc Hm Ha), rows_scaled, N0, N1, N2.
  destruct (det_rows cell Hc) as (D0 & D1 & D2). apply norm_pos in D0, D1, D2.
  f_equal; f_equal; field; lra.
Qed.
(** For every motion, unit cell, whole or fractional multiples kx, ky, kz, orientation of LAMMPS' box and window of steps: the LAMMPS reader and the XDATCAR reader
    (through the Dynamics object) show the same positions, those of the motion in the simulation cell, and the same simulation cell. *)
Theorem C126_lammps_xdatcar : forall cell kx ky kz n ns b k file_l file_x steps_l steps_x motion dt last a e limit template,
  (forall m, mdet m <> 0 -> is_inverse (inv m) m) -> mdet cell <> 0 -> same_shape cell kx ky kz (box_lattice b) ->
  let super := mmul (mdiag kx ky kz) cell in
  n = list_sum ns -> template_ok argsort n template -> k <> Unrecognised -> motion <> [] ->
  dump n b k steps_l file_l -> map snd steps_l = in_cell (box_lattice b) motion ->
  xdatcar_of super ns steps_x file_x -> map snd steps_x = motion ->
  range_ok a e -> (List.length (window a e motion) <= limit)%nat -> last_ok last (window a e motion) ->
  exists r c, lammps file_l cell dt (option_map Z.of_nat last) a e limit false template = Ok r /\
    xdatcar file_x dt (option_map Z.of_nat last) a e limit false template = Ok (c, super) /\
    lr_supercell r = super /\
    shown (lr_supercell r) (Some (c_data (lr_content r))) None = Some (in_cell super (map (arrange argsort template) (last_opt last (window a e motion)))) /\
    shown super None (Some (c_data c)) = Some (in_cell super (map (arrange argsort template) (last_opt last (window a e motion)))).
Proof.
  intros cell kx ky kz n ns b k file_l file_x steps_l steps_x motion dt last a e limit template Hinv Hc Hs super Hn Ht Hk Hne Hl El Hx Ex Hr Hw Hlast.
  assert (HT := turned cell kx ky kz (box_lattice b) Hinv Hc Hs). fold super in HT.
  assert (Wl : map snd (window a e steps_l) = in_cell (box_lattice b) (window a e motion)) by (rewrite <- window_map, El; unfold in_cell; apply window_map).
  assert (Wx : map snd (window a e steps_x) = window a e motion) by (rewrite <- window_map, Ex; reflexivity).
  assert (Ll : List.length (window a e steps_l) = List.length (window a e motion)) by (rewrite <- (map_length snd), Wl; unfold in_cell; apply map_length).
  assert (Lx : List.length (window a e steps_x) = List.length (window a e motion)) by (rewrite <- (map_length snd (window a e steps_x)), Wx; reflexivity).
  assert (K : forall A B (x : list A) (y : list B), List.length x = List.length y -> last_ok last y -> last_ok last x).
  { intros A B x y E. destruct last; cbn; [|tauto]. intros (P & Q). split; [exact P|]. intros ->. apply Q. destruct y; [reflexivity|discriminate]. }
  assert (Sl : steps_l <> []) by (intros ->; cbn in El; symmetry in El; apply map_eq_nil in El; contradiction).
  assert (RL := lammps_range has words num int kind argsort inv cell n b k file_l dt last a e limit template steps_l Ht Hk Hl Sl Hr ltac:(rewrite Ll; exact Hw) (K _ _ _ _ Ll Hlast)).
  rewrite Hn in Ht.
  assert (RX := xdatcar_range has words num int after_eq argsort file_x super ns dt last a e limit template steps_x Ht Hx Hr ltac:(rewrite Lx; exact Hw) (K _ _ _ _ Lx Hlast)).
  eexists. eexists. split; [exact RL|]. split; [exact RX|]. cbn [lr_supercell lr_content c_data]. split; [exact HT|].
  unfold shown. cbn [DynamicsModel.trajectory DynamicsModel.new_dynamics DynamicsModel.d_traj DynamicsModel.d_scaled option_map fst].
  split; f_equal.
  - rewrite <- (map_map snd (fun f => map (fun v => vmul v (transformation inv cell (box_lattice b))) (arrange argsort template f))), <- last_map, Wl.
    unfold in_cell. rewrite last_map, !map_map. apply map_ext. intros f. rewrite arrange_map, map_map. apply map_ext. intros v. rewrite vmul_mmul, HT. reflexivity.
  - rewrite <- (map_map snd (fun f => arrange argsort template f)), <- last_map, Wx. unfold in_cell. rewrite !map_map. reflexivity.
Qed.
(** the time stamps agree too (from the first step, or when last_steps asks for no more than is read: C40) *)
Theorem C126_times : forall cell super n ns b k file_l file_x steps_l steps_x dt last a e limit template r c,
  n = list_sum ns -> template_ok argsort n template -> k <> Unrecognised -> steps_l <> [] ->
  dump n b k steps_l file_l -> xdatcar_of super ns steps_x file_x -> map fst steps_l = map fst steps_x ->
  range_ok a e -> (List.length (window a e steps_l) <= limit)%nat -> last_ok last (window a e steps_l) ->
  ((a <= 1)%nat \/ exists m, last = Some m /\ (m <= List.length (window a e steps_l))%nat) ->
  lammps file_l cell dt (option_map Z.of_nat last) a e limit false template = Ok r ->
  xdatcar file_x dt (option_map Z.of_nat last) a e limit false template = Ok (c, super) ->
  c_time (lr_content r) = c_time c.
Proof.
  intros cell super n ns b k file_l file_x steps_l steps_x dt last a e limit template r c Hn Ht Hk Hne Hl Hx Et Hr Hw Hlast Hc Er Ec.
  assert (Wt : map fst (window a e steps_l) = map fst (window a e steps_x)) by (rewrite <- !window_map, Et; reflexivity).
  assert (Lx : List.length (window a e steps_x) = List.length (window a e steps_l)) by (rewrite <- (map_length fst (window a e steps_x)), <- Wt, map_length; reflexivity).
  assert (K : last_ok last (window a e steps_x)).
  { destruct last; cbn in *; [|exact I]. destruct Hlast as (P & Q). split; [exact P|]. intros E. rewrite E in Lx. destruct (window a e steps_l); [contradiction|discriminate]. }
  destruct (C40_lammps_partial has words num int kind argsort inv cell n b k file_l dt last a e limit template steps_l Ht Hk Hl Hne Hr Hw Hlast) as (r' & Er' & Tr & _).
  rewrite Er in Er'. injection Er' as <-. rewrite Hn in Ht.
  destruct (C40_xdatcar_partial has words num int after_eq argsort file_x super ns dt last a e limit template steps_x Ht Hx Hr ltac:(rewrite Lx; exact Hw) K ltac:(rewrite Lx; exact Hc)) as (c' & Ec' & Tc & _).
  rewrite Ec in Ec'. injection Ec' as <-. rewrite Tr, Tc.
  rewrite <- (map_map fst (fun t => t * dt) (last_opt last (window a e steps_l))), <- (map_map fst (fun t => t * dt) (last_opt last (window a e steps_x))), <- !last_map, Wt. reflexivity.
Qed.
(** an OUTCAR with the same motion, read from its first step (C39 tells what happens otherwise), shows the same positions *)
Theorem C126_outcar : forall nions potim energy super n file_o steps_o motion potim_o last a e limit template,
  template_ok argsort n template ->
  outcar_file has words num (fun l k => nions l = Some k) (fun l t => potim l = Some t) (fun l t => energy l = Some t) n potim_o steps_o file_o ->
  map snd steps_o = in_cell super motion -> (a <= 1)%nat -> range_ok a e -> (List.length (window a e motion) <= limit)%nat -> last_ok last (window a e motion) ->
  exists c en, read_outcar has words num argsort nions potim energy file_o (option_map Z.of_nat last) a e limit template = Ok (c, en) /\
    shown super (Some (c_data c)) None = Some (in_cell super (map (arrange argsort template) (last_opt last (window a e motion)))).
Proof.
  intros nions potim energy super n file_o steps_o motion potim_o last a e limit template Ht Ho Eo Ha Hr Hw Hlast.
  assert (W : map snd (firstn (stop a e limit - (a - 1)) steps_o) = in_cell super (window a e motion)).
  { assert (Lm : List.length steps_o = List.length motion) by (rewrite <- (map_length snd), Eo; unfold in_cell; apply map_length).
    assert (F : firstn (stop a e limit - (a - 1)) motion = window a e motion).
    { assert (G := window_stop a e limit motion). rewrite <- G.
      - unfold window. replace (a - 1)%nat with 0%nat by lia. rewrite Nat.sub_0_r. reflexivity.
      - destruct e; [apply Hr|exact I].
      - exact Hw. }
    rewrite <- firstn_map, Eo. unfold in_cell. rewrite firstn_map, F. reflexivity. }
  assert (X := outcar_window has words num argsort nions potim energy a e limit template n file_o potim_o last steps_o Ht Ho Hr). cbv zeta in X.
  eexists. eexists. split.
  - apply X. destruct last; cbn in *; [|exact I]. destruct Hlast as (P & Q). split; [exact P|]. intros E. rewrite E in W. cbn in W. symmetry in W. apply map_eq_nil in W. contradiction.
  - unfold shown. cbn [c_data DynamicsModel.trajectory DynamicsModel.new_dynamics DynamicsModel.d_traj option_map fst]. f_equal.
    rewrite <- (map_map snd (fun f => arrange argsort template f)), <- last_map, W. unfold in_cell. rewrite last_map, !map_map. apply map_ext. intros f. apply arrange_map.
Qed.
End Statements.
Print Assumptions C126_lammps_xdatcar.
Print Assumptions C126_times.
Print Assumptions C126_outcar.

(** ---------- a concrete motion of one atom, two steps, in the three formats; cubic unit cell of edge 1, simulation cell 5 x 5 x 5 ---------- *)
Definition f_motion : list (list vec) := [[V3 1 0 1]; [V3 0 0 1]].
Definition f_block (t x : string) : list (list string) :=
  [["ITEM:"; "TIMESTEP"]; [t]; ["ITEM:"; "NUMBER"; "OF"; "ATOMS"]; ["1"]; ["ITEM:"; "BOX"; "BOUNDS"; "pp"; "pp"; "pp"]; ["0"; "5"]; ["0"; "5"]; ["0"; "5"];
   ["ITEM:"; "ATOMS"; "x"; "y"; "z"]; [x; "0"; "5"]]%string.
Definition f_steps : list (R * list vec) := [(1, [V3 5 0 5]); (2, [V3 0 0 5])].
Lemma f_dump_ok : lammps_dump w_has w_words w_num w_int 1 w_box (fun l => w_kind l = Positions) f_steps (f_block "1" "5" ++ f_block "2" "0").
Proof.
  exists [f_block "1" "5"; f_block "2" "0"]. split; [|reflexivity].
  apply List.Forall2_cons; [|apply List.Forall2_cons; [|constructor]].
  - apply (lb w_has w_words w_num w_int 1 w_box (fun l => w_kind l = Positions) ["ITEM:"; "TIMESTEP"]%string ["1"]%string ["ITEM:"; "NUMBER"; "OF"; "ATOMS"]%string ["1"]%string ["ITEM:"; "BOX"; "BOUNDS"; "pp"; "pp"; "pp"]%string ["0"; "5"]%string ["0"; "5"]%string ["0"; "5"]%string ["ITEM:"; "ATOMS"; "x"; "y"; "z"]%string [["5"; "0"; "5"]%string] 1 [V3 5 0 5]);
      first [reflexivity | exists "1"%string; split; reflexivity | right; cbn; repeat split; repeat constructor | repeat constructor].
  - apply (lb w_has w_words w_num w_int 1 w_box (fun l => w_kind l = Positions) ["ITEM:"; "TIMESTEP"]%string ["2"]%string ["ITEM:"; "NUMBER"; "OF"; "ATOMS"]%string ["1"]%string ["ITEM:"; "BOX"; "BOUNDS"; "pp"; "pp"; "pp"]%string ["0"; "5"]%string ["0"; "5"]%string ["0"; "5"]%string ["ITEM:"; "ATOMS"; "x"; "y"; "z"]%string [["0"; "0"; "5"]%string] 2 [V3 0 0 5]);
      first [reflexivity | exists "1"%string; split; reflexivity | right; cbn; repeat split; repeat constructor | repeat constructor].
Qed.
Definition f_xdatcar : list (list string) :=
  [["GaN"]; ["1"]; ["5"; "0"; "0"]; ["0"; "5"; "0"]; ["0"; "0"; "5"]; ["H"]; ["1"];
   ["Direct"; "configuration="; "1"]; ["1"; "0"; "1"]; ["Direct"; "configuration="; "2"]; ["0"; "0"; "1"]]%string.
Lemma f_xdatcar_ok : xdatcar_file w_has w_words w_num w_int (fun l t => w_eq l = Some t) (mdiag 5 5 5) [1%nat] [(1, [V3 1 0 1]); (2, [V3 0 0 1])] f_xdatcar.
Proof.
  apply (xf w_has w_words w_num w_int (fun l t => w_eq l = Some t) (mdiag 5 5 5) [1%nat] _ ["GaN"]%string ["1"]%string ["5"; "0"; "0"]%string ["0"; "5"; "0"]%string ["0"; "0"; "5"]%string ["H"]%string ["1"]%string
    [[["Direct"; "configuration="; "1"]; ["1"; "0"; "1"]]; [["Direct"; "configuration="; "2"]; ["0"; "0"; "1"]]]%string); try reflexivity.
  repeat (apply List.Forall2_cons; [constructor; try reflexivity; repeat constructor|]). constructor.
Qed.
Definition f_outcar : list (list string) :=
  [["header"]; ["NIONS ="; "1"]; ["POTIM  ="; "1"]; ["direct"; "lattice"; "vectors"]; ["POSITION"]; ["---"]; ["5"; "0"; "5"]; ["other"]; ["energy("; "1"]; ["POSITION"]; ["---"]; ["0"; "0"; "5"]; ["energy("; "2"]; ["end"]]%string.
Lemma f_outcar_ok : outcar_file w_has w_words w_num (fun l k => (match l with [_; w] => w_int w | _ => None end) = Some k) (fun l t => w_energy l = Some t) (fun l t => w_energy l = Some t) 1 1
  f_steps f_outcar.
Proof.
  apply (of_ w_has w_words w_num _ _ _ 1 1 _ [["header"]]%string [] [] [["end"]]%string ["NIONS ="; "1"]%string ["POTIM  ="; "1"]%string ["direct"; "lattice"; "vectors"]%string
    [[["POSITION"]; ["---"]; ["5"; "0"; "5"]; ["other"]; ["energy("; "1"]]; [["POSITION"]; ["---"]; ["0"; "0"; "5"]; ["energy("; "2"]]]%string); try reflexivity; try (repeat constructor).
  - apply (ob w_has w_words w_num _ 1 [] ["POSITION"]%string ["---"]%string [["5"; "0"; "5"]]%string [["other"]]%string ["energy("; "1"]%string 1 [V3 5 0 5]); try reflexivity; repeat constructor.
  - apply (ob w_has w_words w_num _ 1 [] ["POSITION"]%string ["---"]%string [["0"; "0"; "5"]]%string [] ["energy("; "2"]%string 2 [V3 0 0 5]); try reflexivity; repeat constructor.
Qed.
Example C126_nonvacuous :
  (exists inv, forall m, mdet m <> 0 -> is_inverse (inv m) m) /\ mdet (mdiag 1 1 1) <> 0 /\ same_shape (mdiag 1 1 1) 5 5 5 (box_lattice w_box) /\ mmul (mdiag 5 5 5) (mdiag 1 1 1) = mdiag 5 5 5 /\
  lammps_dump w_has w_words w_num w_int 1 w_box (fun l => w_kind l = Positions) f_steps (f_block "1" "5" ++ f_block "2" "0") /\ map snd f_steps = in_cell (box_lattice w_box) f_motion /\
  xdatcar_file w_has w_words w_num w_int (fun l t => w_eq l = Some t) (mdiag 5 5 5) [1%nat] [(1, [V3 1 0 1]); (2, [V3 0 0 1])] f_xdatcar /\
  outcar_file w_has w_words w_num (fun l k => (match l with [_; w] => w_int w | _ => None end) = Some k) (fun l t => w_energy l = Some t) (fun l t => w_energy l = Some t) 1 1 f_steps f_outcar /\
  map snd f_steps = in_cell (mdiag 5 5 5) f_motion.
Proof.
  assert (N : forall x, 0 < x -> vnorm (V3 x 0 0) = x /\ vnorm (V3 0 x 0) = x /\ vnorm (V3 0 0 x) = x).
  { intros x Hx. unfold vnorm, vnorm2, vdot. cbn. repeat split; rewrite <- (sqrt_square x) at 3 by lra; f_equal; ring. }
  split; [exists (fun m => DisplacementsModel.mkmat (DisplacementsModel.matrix_inverse 3 (DisplacementsModel.mget m))); apply DisplacementsProofs.inverse3|].
  split; [unfold mdet, mdiag; cbn; lra|]. split; [|split; [unfold mmul, mdiag, vmul, vadd, vscale; cbn; f_equal; apply vec_eq; cbn; ring|]].
  - unfold same_shape. cbn [r0 r1 r2 box_lattice w_box mdiag xhi xlo yhi ylo zhi zlo xy xz yz]. replace (5 - 0) with 5 by ring.
    destruct (N 5 ltac:(lra)) as (A & B & D), (N 1 ltac:(lra)) as (A1 & B1 & D1). rewrite A, B, D, A1, B1, D1.
    split; [unfold mdet, box_lattice; cbn; lra|]. split; [|lra].
    unfold same_angles, cosine, vdot. cbn. repeat split; unfold Rdiv; ring.
  - split; [exact f_dump_ok|]. split; [unfold in_cell, f_motion, f_steps, box_lattice, vmul, vadd, vscale; cbn; repeat f_equal; ring|].
    split; [exact f_xdatcar_ok|]. split; [exact f_outcar_ok|].
    unfold in_cell, f_motion, f_steps, mdiag, vmul, vadd, vscale; cbn; repeat f_equal; ring.
Qed.
