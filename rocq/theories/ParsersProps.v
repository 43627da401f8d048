(** C38-C42, C60-C62: trajectory readers. *)
From Verif Require Import ParsersModel ParsersSpec ParsersProofs ParsersMore ParsersGeometry ParsersTemplate GenerateSpec.
From Verif Require GenerateModel.
From Coq Require Import Permutation.
Open Scope R_scope.

Section Statements.
Context {L T : Type} (has : string -> L -> bool) (words : L -> list T) (num : T -> option R) (int : T -> option nat)
        (after_eq : L -> option R) (kind : L -> label_kind) (argsort : list R -> list nat) (inv : mat -> mat).
Notation dump n b k := (lammps_dump has words num int n b (fun l => kind l = k)).
Notation lammps := (read_lammps has words num int kind argsort inv).
Notation xdatcar_of := (xdatcar_file has words num int (fun l t => after_eq l = Some t)).
Notation xdatcar := (read_xdatcar has words num int after_eq argsort).

Lemma lammps_range cell n b k file dt last a e limit template steps :
  template_ok argsort n template -> k <> Unrecognised -> dump n b k steps file -> steps <> [] -> range_ok a e ->
  let w := window a e steps in (List.length w <= limit)%nat -> last_ok last w ->
  lammps file cell dt (option_map Z.of_nat last) a e limit false template =
  Ok (MkLR k (MkContent (map (fun s => fst s * dt) (last_opt last w))
                        (map (fun s => map (fun v => vmul v (transformation inv cell (box_lattice b))) (arrange argsort template (snd s))) (last_opt last w)))
             (mmul (box_lattice b) (transformation inv cell (box_lattice b)))).
Proof.
  intros Ht Hk Hd Hne Hr w Hw Hl. assert (E := window_stop a e limit steps). assert (E' : window a (Some (stop a e limit)) steps = w) by (apply E; [destruct e; [apply Hr|exact I]|exact Hw]).
  assert (X := lammps_window has words num int kind argsort inv cell n b (fun l => kind l = k) k file dt last a e limit template steps Ht Hk (fun l Hl => Hl) Hd Hne Hr). cbv zeta in X. rewrite E' in X. apply X. exact Hl.
Qed.
Lemma xdatcar_range file cell ns dt last a e limit template steps :
  template_ok argsort (list_sum ns) template -> xdatcar_of cell ns steps file -> range_ok a e ->
  let w := window a e steps in (List.length w <= limit)%nat -> last_ok last w ->
  xdatcar file dt (option_map Z.of_nat last) a e limit false template =
  Ok (MkContent (last_opt last (map (fun s => fst s * dt) (match e with Some e => firstn e steps | None => steps end)))
                (map (fun s => arrange argsort template (snd s)) (last_opt last w)), cell).
Proof.
  intros Ht Hd Hr w Hw Hl. assert (E := window_stop a e limit steps). assert (E' : window a (Some (stop a e limit)) steps = w) by (apply E; [destruct e; [apply Hr|exact I]|exact Hw]).
  assert (X := xdatcar_window has words num int after_eq argsort file cell ns dt last a e limit template steps Ht Hd Hr). cbv zeta in X. rewrite E' in X.
  rewrite X by exact Hl. do 3 f_equal.
  f_equal. unfold w, window in Hw. unfold stop. destruct e as [e|].
  - rewrite skipn_length, firstn_length in Hw. destruct (Nat.le_gt_cases e (limit + a + 1)) as [F|F]; [rewrite Nat.min_l by exact F; reflexivity|]. rewrite Nat.min_r by lia. rewrite !firstn_all2 by lia. reflexivity.
  - rewrite skipn_length in Hw. rewrite firstn_all2 by lia. reflexivity.
Qed.

(** C38: whatever box LAMMPS wrote, the lattice read is that box turned into the orientation of the unit cell: each row is
    parallel to the corresponding unit cell vector and keeps its length; atoms are turned by the same orthogonal matrix, so
    their fractional coordinates and mutual distances are kept *)
Theorem C38_lattice : forall cell n b k file dt a e limit template steps r,
  (forall m, mdet m <> 0 -> is_inverse (inv m) m) -> mdet cell <> 0 -> xlo b < xhi b -> ylo b < yhi b -> zlo b < zhi b -> same_angles cell (box_lattice b) ->
  template_ok argsort n template -> k <> Unrecognised -> dump n b k steps file -> steps <> [] -> range_ok a e -> (List.length (window a e steps) <= limit)%nat ->
  lammps file cell dt None a e limit false template = Ok r ->
  lr_supercell r = M3 (vscale (vnorm (r0 (box_lattice b)) / vnorm (r0 cell)) (r0 cell)) (vscale (vnorm (r1 (box_lattice b)) / vnorm (r1 cell)) (r1 cell)) (vscale (vnorm (r2 (box_lattice b)) / vnorm (r2 cell)) (r2 cell)) /\
  exists t, mmul t (mT t) = mid /\ (forall u v, vdot (vmul u t) (vmul v t) = vdot u v) /\ lr_supercell r = mmul (box_lattice b) t /\
    c_data (lr_content r) = map (fun s => map (fun v => vmul v t) (arrange argsort template (snd s))) (window a e steps).
Proof.
  intros cell n b k file dt a e limit template steps r Hinv Hc Hx Hy Hz Hs Ht Hk Hd Hne Hr Hw E.
  assert (X := lammps_range cell n b k file dt None a e limit template steps Ht Hk Hd Hne Hr Hw I). cbn [option_map last_opt] in X. rewrite X in E. injection E as <-. cbn [lr_supercell lr_content c_data].
  assert (Hb : mdet (box_lattice b) <> 0). { rewrite box_det. assert (0 < (xhi b - xlo b) * (yhi b - ylo b)) by (apply Rmult_lt_0_compat; lra). assert (0 < (xhi b - xlo b) * (yhi b - ylo b) * (zhi b - zlo b)) by (apply Rmult_lt_0_compat; lra). lra. }
  split; [apply rotated; assumption|]. exists (transformation inv cell (box_lattice b)).
  assert (O := orthogonal inv Hinv cell (box_lattice b) Hc Hb Hs). repeat split; [exact O|]. intros u v. apply orth_dot. exact O.
Qed.
(** the orientation step works exactly when the unit cell and the box have the same angles *)
Theorem C38_same_angles_needed : forall cell m, (forall m, mdet m <> 0 -> is_inverse (inv m) m) -> mdet cell <> 0 -> mdet m <> 0 ->
  (mmul m (transformation inv cell m) = M3 (vscale (vnorm (r0 m) / vnorm (r0 cell)) (r0 cell)) (vscale (vnorm (r1 m) / vnorm (r1 cell)) (r1 cell)) (vscale (vnorm (r2 m) / vnorm (r2 cell)) (r2 cell))
   <-> same_angles cell m).
Proof. intros cell m H. apply rotated_iff. exact H. Qed.
(** a supercell written with generate_LAMMPS_structure, simulated and dumped by LAMMPS is read back as the same lattice *)
Theorem C38_write_read : forall cell kx ky kz, (forall m, mdet m <> 0 -> is_inverse (inv m) m) -> mdet cell <> 0 -> 0 < kx -> 0 < ky -> 0 < kz ->
  let super := mmul (mdiag kx ky kz) cell in
  let '(lx, ly, lz, txy, txz, tyz) := GenerateModel.lammps_box super in
  let m := lammps_lattice lx ly lz txy txz tyz in
  mmul m (transformation inv cell m) = super.
Proof. intros cell kx ky kz H. apply round_trip. exact H. Qed.

(** C39: the LAMMPS reader returns exactly the last [last] of steps a..e (atoms reordered and turned as configured) *)
Theorem C39_lammps_partial : forall cell n b k file dt last a e limit template steps,
  template_ok argsort n template -> k <> Unrecognised -> dump n b k steps file -> steps <> [] -> range_ok a e ->
  let w := window a e steps in (List.length w <= limit)%nat -> last_ok last w ->
  exists r, lammps file cell dt (option_map Z.of_nat last) a e limit false template = Ok r /\
  c_data (lr_content r) = map (fun s => map (fun v => vmul v (transformation inv cell (box_lattice b))) (arrange argsort template (snd s))) (last_opt last w).
Proof. intros. eexists. split; [eapply lammps_range; eassumption|reflexivity]. Qed.
Theorem C39_xdatcar_partial : forall file cell ns dt last a e limit template steps,
  template_ok argsort (list_sum ns) template -> xdatcar_of cell ns steps file -> range_ok a e ->
  let w := window a e steps in (List.length w <= limit)%nat -> last_ok last w ->
  exists c, xdatcar file dt (option_map Z.of_nat last) a e limit false template = Ok (c, cell) /\
  c_data c = map (fun s => arrange argsort template (snd s)) (last_opt last w).
Proof. intros. eexists. split; [eapply xdatcar_range; eassumption|reflexivity]. Qed.
(** the OUTCAR reader: initial_cut only changes how many steps are read; they are always the first ones of the file *)
Theorem C39_outcar_characterised : forall nions potim energy n file dt last a e limit template steps,
  template_ok argsort n template -> outcar_file has words num (fun l k => nions l = Some k) (fun l t => potim l = Some t) (fun l t => energy l = Some t) n dt steps file ->
  range_ok a (Some e) -> (1 <= a)%nat -> (e - a < limit)%nat ->
  let w := firstn (e + 1 - a) steps in last_ok last w ->
  exists c en, read_outcar has words num argsort nions potim energy file (option_map Z.of_nat last) a (Some e) limit template = Ok (c, en) /\
  c_data c = map (fun s => arrange argsort template (snd s)) (last_opt last w).
Proof.
  intros nions potim energy n file dt last a e limit template steps Ht Hf Hr Ha Hl w Hlast.
  assert (X := outcar_window has words num argsort nions potim energy a (Some e) limit template n file dt last steps Ht Hf Hr). cbv zeta in X.
  assert (Es : (stop a (Some e) limit - (a - 1) = e + 1 - a)%nat) by (unfold stop; lia). rewrite Es in X. eexists. eexists. split; [apply X; exact Hlast|reflexivity].
Qed.
(** so for initial_cut > 1 the wrong steps are returned: whenever steps 1 and a of the file differ *)
Theorem C39_outcar_refuted : forall nions potim energy n file dt a e limit steps s1 sa,
  outcar_file has words num (fun l k => nions l = Some k) (fun l t => potim l = Some t) (fun l t => energy l = Some t) n dt steps file ->
  (1 < a <= e)%nat -> (e - a < limit)%nat -> nth_error steps 0 = Some s1 -> nth_error steps (a - 1) = Some sa -> snd s1 <> snd sa ->
  exists c en, read_outcar has words num argsort nions potim energy file None a (Some e) limit None = Ok (c, en) /\
  c_data c <> map snd (window a (Some e) steps).
Proof.
  intros nions potim energy n file dt a e limit steps s1 sa Hf Ha Hl E1 Ea Hne.
  destruct (C39_outcar_characterised nions potim energy n file dt None a e limit None steps I Hf ltac:(cbn; lia) ltac:(lia) Hl I) as (c & en & E & Ed).
  exists c, en. split; [exact E|]. rewrite Ed. cbn [last_opt arrange]. intros F. apply (f_equal (fun l => nth_error l 0)) in F.
  rewrite !nth_error_map in F. unfold window in F. destruct steps as [|s steps]; [discriminate|]. cbn in E1. injection E1 as ->.
  assert (G : nth_error (skipn (a - 1) (firstn e (s1 :: steps))) 0 = Some sa).
  { rewrite skipn_firstn_comm. replace (e - (a - 1))%nat with (S (e - a)) by lia.
    assert (K : forall (l : list (R * list vec)) k, nth_error l k = Some sa -> exists t, skipn k l = sa :: t). { clear. intros l. induction l as [|x l IH]; intros [|k] H; try discriminate; cbn in *; [injection H as ->; eauto|apply IH, H]. }
    destruct (K _ _ Ea) as [t ->]. reflexivity. }
  rewrite G in F. replace (e + 1 - a)%nat with (S (e - a)) in F by lia. cbn in F. congruence.
Qed.

(** C40: LAMMPS, in memory: one time stamp per stored step, the one of that step *)
Theorem C40_lammps_partial : forall cell n b k file dt last a e limit template steps,
  template_ok argsort n template -> k <> Unrecognised -> dump n b k steps file -> steps <> [] -> range_ok a e ->
  let w := window a e steps in (List.length w <= limit)%nat -> last_ok last w ->
  exists r, lammps file cell dt (option_map Z.of_nat last) a e limit false template = Ok r /\
  c_time (lr_content r) = map (fun s => fst s * dt) (last_opt last w) /\ List.length (c_time (lr_content r)) = List.length (c_data (lr_content r)).
Proof. intros. eexists. split; [eapply lammps_range; eassumption|]. cbn. split; [reflexivity|]. rewrite !map_length. reflexivity. Qed.
(** XDATCAR: right when reading from the first step, or when last_steps does not exceed the steps read *)
Theorem C40_xdatcar_partial : forall file cell ns dt last a e limit template steps,
  template_ok argsort (list_sum ns) template -> xdatcar_of cell ns steps file -> range_ok a e ->
  let w := window a e steps in (List.length w <= limit)%nat -> last_ok last w ->
  ((a <= 1)%nat \/ exists m, last = Some m /\ (m <= List.length w)%nat) ->
  exists c, xdatcar file dt (option_map Z.of_nat last) a e limit false template = Ok (c, cell) /\
  c_time c = map (fun s => fst s * dt) (last_opt last w) /\ List.length (c_time c) = List.length (c_data c).
Proof.
  intros file cell ns dt last a e limit template steps Ht Hd Hr w Hw Hl Hc. eexists. split; [eapply xdatcar_range; eassumption|]. cbn [c_time c_data]. fold w.
  assert (E : last_opt last (map (fun s : R * list vec => fst s * dt) (match e with Some e => firstn e steps | None => steps end)) = map (fun s => fst s * dt) (last_opt last w)).
  { rewrite last_opt_map. unfold w, window. set (l := match e with Some e => firstn e steps | None => steps end). destruct Hc as [Hc|(m & -> & Hm)].
    - replace (a - 1)%nat with 0%nat by lia. reflexivity.
    - unfold w, window in Hm. fold l in Hm. rewrite skipn_length in Hm. cbn [last_opt]. unfold last_n. rewrite !map_length, skipn_length. rewrite <- !skipn_map.
      assert (K : forall (A : Type) p q (x : list A), skipn p (skipn q x) = skipn (p + q) x). { clear. intros A p q. revert p. induction q as [|q IH]; intros p x; [rewrite Nat.add_0_r; reflexivity|]. destruct x as [|y x]; [rewrite !skipn_nil; reflexivity|]. rewrite Nat.add_succ_r. cbn [skipn]. apply IH. }
      rewrite K. f_equal. destruct Hl as [Hl _]. lia. }
  split; [exact E|]. etransitivity; [apply (f_equal (@List.length R)), E|]. rewrite !map_length. reflexivity.
Qed.
(** otherwise there are a - 1 time stamps too many (the stamps of the steps that were skipped) *)
Theorem C40_xdatcar_refuted : forall file cell ns dt a e limit template steps,
  template_ok argsort (list_sum ns) template -> xdatcar_of cell ns steps file -> range_ok a e -> (1 < a)%nat ->
  let w := window a e steps in w <> [] -> (List.length w <= limit)%nat ->
  exists c, xdatcar file dt None a e limit false template = Ok (c, cell) /\ List.length (c_time c) = (List.length (c_data c) + (a - 1))%nat.
Proof.
  intros file cell ns dt a e limit template steps Ht Hd Hr Ha w Hne Hw. assert (X := xdatcar_range file cell ns dt None a e limit template steps Ht Hd Hr Hw I). cbn [option_map last_opt] in X.
  eexists. split; [exact X|]. cbn [c_time c_data]. rewrite !map_length. unfold w, window in Hne |- *. rewrite skipn_length.
  destruct (Nat.le_gt_cases (List.length (match e with Some e => firstn e steps | None => steps end)) (a - 1)) as [F|F]; [exfalso; apply Hne, skipn_all2, F|]. destruct e; lia.
Qed.
(** OUTCAR: as many time stamps as steps, equally spaced by POTIM (femtoseconds to picoseconds) *)
Theorem C40_outcar_partial : forall nions potim energy n file dt last a e limit template steps,
  template_ok argsort n template -> outcar_file has words num (fun l k => nions l = Some k) (fun l t => potim l = Some t) (fun l t => energy l = Some t) n dt steps file ->
  range_ok a e -> last_ok last (firstn (stop a e limit - (a - 1)) steps) ->
  exists c en, read_outcar has words num argsort nions potim energy file (option_map Z.of_nat last) a e limit template = Ok (c, en) /\
  List.length (c_time c) = List.length (c_data c) /\ forall i, (i < List.length (c_time c))%nat -> nth i (c_time c) 0 = INR i * (dt * / 1000).
Proof.
  intros nions potim energy n file dt last a e limit template steps Ht Hf Hr Hlast. eexists. eexists. split; [apply (outcar_window has words num argsort nions potim energy a e limit template n file dt last steps Ht Hf Hr Hlast)|].
  cbn [c_time c_data]. rewrite !map_length, seq_length. split; [reflexivity|]. intros i Hi.
  rewrite (nth_indep _ 0 (INR 0 * (dt * / 1000))) by (rewrite map_length, seq_length; exact Hi). rewrite (map_nth (fun i => INR i * (dt * / 1000))). rewrite seq_nth by exact Hi. reflexivity.
Qed.

(** C41: LAMMPS: same data when the requested window is completely in the file *)
Theorem C41_lammps_partial : forall cell n b k file dt a e limit template steps,
  template_ok argsort n template -> k <> Unrecognised -> dump n b k steps file -> steps <> [] ->
  (1 <= a <= e)%nat -> (e <= List.length steps)%nat -> (e + 1 - a <= limit)%nat ->
  lammps file cell dt None a (Some e) limit true template = lammps file cell dt None a (Some e) limit false template.
Proof.
  intros cell n b k file dt a e limit template steps Ht Hk Hd Hne Ha He Hl.
  assert (Lw : List.length (window a (Some e) steps) = (e + 1 - a)%nat) by (unfold window; rewrite skipn_length, firstn_length; lia).
  assert (X := lammps_range cell n b k file dt None a (Some e) limit template steps Ht Hk Hd Hne ltac:(cbn; lia) ltac:(lia) I). cbn [option_map last_opt] in X. rewrite X.
  assert (Y := lammps_memmap has words num int kind argsort inv cell n b (fun l => kind l = k) k file dt None a e limit template steps Ht Hk (fun l Hl => Hl) Hd Hne ltac:(lia) ltac:(lia)). cbv zeta in Y.
  rewrite (window_stop a (Some e) limit steps) in Y by (first [lia | cbn; lia | unfold frame in *; lia]). rewrite Y. rewrite Lw, Nat.sub_diag. cbn [repeat]. rewrite app_nil_r. reflexivity.
Qed.
(** if the file ends before the window does, the memory mapped trajectory is padded with atoms at the origin *)
Theorem C41_lammps_short_refuted : forall cell n b k file dt a e limit template steps,
  template_ok argsort n template -> k <> Unrecognised -> dump n b k steps file -> steps <> [] ->
  (1 <= a <= e)%nat -> (List.length steps < e)%nat -> (a <= List.length steps)%nat -> (e + 1 - a <= limit)%nat ->
  exists r r', lammps file cell dt None a (Some e) limit true template = Ok r /\ lammps file cell dt None a (Some e) limit false template = Ok r' /\
  c_data (lr_content r) = c_data (lr_content r') ++ repeat (repeat vzero n) (e - List.length steps) /\ c_data (lr_content r) <> c_data (lr_content r').
Proof.
  intros cell n b k file dt a e limit template steps Ht Hk Hd Hne Ha He Has Hl.
  assert (Lw : List.length (window a (Some e) steps) = (List.length steps + 1 - a)%nat) by (unfold window; rewrite skipn_length, firstn_length; lia).
  assert (X := lammps_range cell n b k file dt None a (Some e) limit template steps Ht Hk Hd Hne ltac:(cbn; lia) ltac:(lia) I). cbn [option_map last_opt] in X.
  assert (Y := lammps_memmap has words num int kind argsort inv cell n b (fun l => kind l = k) k file dt None a e limit template steps Ht Hk (fun l Hl => Hl) Hd Hne ltac:(lia) ltac:(lia)). cbv zeta in Y.
  rewrite (window_stop a (Some e) limit steps) in Y by (first [lia | cbn; lia | unfold frame in *; lia]). eexists. eexists. split; [exact Y|]. split; [exact X|]. cbn [lr_content c_data].
  rewrite Lw. replace (e + 1 - a - (List.length steps + 1 - a))%nat with (e - List.length steps)%nat by lia. split; [reflexivity|].
  intros F. apply (f_equal (@List.length frame)) in F. rewrite app_length, repeat_length, !map_length in F. lia.
Qed.
(** last_steps is ignored by the memory mapped readers *)
Theorem C41_last_steps_refuted : forall cell n b k file dt a e limit template steps m,
  template_ok argsort n template -> k <> Unrecognised -> dump n b k steps file -> steps <> [] ->
  (1 <= a <= e)%nat -> (e <= List.length steps)%nat -> (e + 1 - a <= limit)%nat -> (0 < m < e + 1 - a)%nat ->
  exists r r', lammps file cell dt (Some (Z.of_nat m)) a (Some e) limit true template = Ok r /\ lammps file cell dt (Some (Z.of_nat m)) a (Some e) limit false template = Ok r' /\
  List.length (c_data (lr_content r)) = (e + 1 - a)%nat /\ List.length (c_data (lr_content r')) = m.
Proof.
  intros cell n b k file dt a e limit template steps m Ht Hk Hd Hne Ha He Hl Hm.
  assert (Lw : List.length (window a (Some e) steps) = (e + 1 - a)%nat) by (unfold window; rewrite skipn_length, firstn_length; lia).
  assert (X := lammps_range cell n b k file dt (Some m) a (Some e) limit template steps Ht Hk Hd Hne ltac:(cbn; lia) ltac:(lia)). cbn [option_map last_opt] in X.
  assert (Y := lammps_memmap has words num int kind argsort inv cell n b (fun l => kind l = k) k file dt (Some (Z.of_nat m)) a e limit template steps Ht Hk (fun l Hl => Hl) Hd Hne ltac:(lia) ltac:(lia)). cbv zeta in Y.
  rewrite (window_stop a (Some e) limit steps) in Y by (first [lia | cbn; lia | unfold frame in *; lia]). eexists. eexists. split; [exact Y|]. split; [apply X; split; [lia|intros F; rewrite F in Lw; cbn in Lw; lia]|]. cbn [lr_content c_data].
  rewrite Lw, Nat.sub_diag. cbn [repeat]. rewrite app_nil_r. rewrite !map_length. split; [exact Lw|]. unfold last_n. rewrite skipn_length. lia.
Qed.
(** XDATCAR: the array is created anew at every step, so only the last step read survives; every earlier step of a window of
    two or more is lost (all atoms at the origin) *)
Theorem C41_xdatcar_refuted : forall file cell ns dt a e limit template steps,
  template_ok argsort (list_sum ns) template -> xdatcar_of cell ns steps file -> (1 <= a < e)%nat -> (e <= List.length steps)%nat -> (e + 1 - a <= limit)%nat ->
  exists c c' z, xdatcar file dt None a (Some e) limit true template = Ok (c, cell) /\ xdatcar file dt None a (Some e) limit false template = Ok (c', cell) /\
  c_data c = repeat (repeat vzero (list_sum ns)) (e - a) ++ [z] /\
  (forall f, nth_error (c_data c') 0 = Some f -> f <> repeat vzero (list_sum ns) -> c_data c <> c_data c').
Proof.
  intros file cell ns dt a e limit template steps Ht Hd Ha He Hl.
  assert (Lw : List.length (window a (Some e) steps) = (e + 1 - a)%nat) by (unfold window; rewrite skipn_length, firstn_length; lia).
  assert (X := xdatcar_range file cell ns dt None a (Some e) limit template steps Ht Hd ltac:(cbn; lia) ltac:(lia) I). cbn [option_map last_opt] in X.
  destruct (exists_last (l := window a (Some e) steps)) as (w' & x & Ew); [intros F; rewrite F in Lw; cbn in Lw; lia|].
  assert (Lw' : List.length w' = (e - a)%nat) by (rewrite Ew, app_length in Lw; cbn in Lw; lia).
  assert (Y := xdatcar_memmap has words num int after_eq argsort file cell ns dt None a e limit template steps w' x Ht Hd ltac:(lia) ltac:(lia)).
  rewrite (window_stop a (Some e) limit steps) in Y by (first [lia | cbn; lia | unfold frame in *; lia]). specialize (Y Ew). rewrite Lw', Nat.sub_diag in Y. cbn [repeat] in Y.
  eexists. eexists. exists (arrange argsort template (snd x)). split; [exact Y|]. split; [exact X|]. cbn [c_data]. split; [reflexivity|].
  intros f Hf Hz F. rewrite <- F in Hf. replace (e - a)%nat with (S (e - a - 1)) in Hf by lia. cbn in Hf. congruence.
Qed.

(** C42: with a template, every atom of the file appears exactly once, and atom i of the file is stored at position template[i] *)
Theorem C42_permutation : forall t f, sorts t (argsort t) -> List.length t = List.length f ->
  template_ok argsort (List.length f) (Some t) /\ Permutation (arrange argsort (Some t) f) f.
Proof. intros t f Hs E. split; [apply template_ok_sorts; [exact Hs|exact E]|apply arranged; assumption]. Qed.
Theorem C42_position : forall s f i, Permutation s (seq 0 (List.length f)) -> sorts (map INR s) (argsort (map INR s)) -> (i < List.length f)%nat ->
  nth_error (arrange argsort (Some (map INR s)) f) (nth i s 0%nat) = nth_error f i.
Proof. intros. apply arranged_at; assumption. Qed.
Theorem C42_inverse : forall s p, Permutation s (seq 0 (List.length s)) -> sorts (map INR s) p ->
  forall i, (i < List.length s)%nat -> nth (nth i s 0%nat) p 0%nat = i /\ nth (nth i p 0%nat) s 0%nat = i.
Proof. intros s p H1 H2 i Hi. split; [apply argsort_inverse'; assumption|apply argsort_inverse; assumption]. Qed.

(** C60: the security limit lets limit + 2 steps through *)
Theorem C60_limit_refuted : forall cell n b k file dt a limit template steps,
  template_ok argsort n template -> k <> Unrecognised -> dump n b k steps file -> (1 <= a)%nat -> (limit + a + 1 <= List.length steps)%nat ->
  exists r, lammps file cell dt None a None limit false template = Ok r /\ List.length (c_data (lr_content r)) = (limit + 2)%nat.
Proof.
  intros cell n b k file dt a limit template steps Ht Hk Hd Ha Hl.
  assert (Hne : steps <> []) by (intros ->; cbn in Hl; lia).
  assert (X := lammps_window has words num int kind argsort inv cell n b (fun l => kind l = k) k file dt None a None limit template steps Ht Hk (fun l Hl => Hl) Hd Hne I I). cbv zeta in X. cbn [option_map last_opt] in X.
  eexists. split; [exact X|]. cbn [lr_content c_data]. rewrite map_length. unfold window, stop. rewrite skipn_length, firstn_length. lia.
Qed.
Theorem C60_bounded_partial : forall cell n b k file dt last a e limit template steps,
  template_ok argsort n template -> k <> Unrecognised -> dump n b k steps file -> steps <> [] -> range_ok a e -> (1 <= a)%nat ->
  last_ok last (window a (Some (stop a e limit)) steps) ->
  exists r, lammps file cell dt (option_map Z.of_nat last) a e limit false template = Ok r /\ (List.length (c_data (lr_content r)) <= limit + 2)%nat.
Proof.
  intros cell n b k file dt last a e limit template steps Ht Hk Hd Hne Hr Ha Hlast.
  assert (X := lammps_window has words num int kind argsort inv cell n b (fun l => kind l = k) k file dt last a e limit template steps Ht Hk (fun l Hl => Hl) Hd Hne Hr Hlast).
  eexists. split; [exact X|]. cbn [lr_content c_data]. rewrite map_length.
  assert (B : (List.length (window a (Some (stop a e limit)) steps) <= limit + 2)%nat) by (etransitivity; [apply window_le|]; unfold stop; destruct e; lia).
  destruct last as [m|]; [cbn [last_opt]; unfold last_n; rewrite skipn_length; lia|exact B].
Qed.
(** C62: the scale factor of an XDATCAR is not applied: the lattice is right exactly when scaling changes nothing *)
Theorem C62_scale_refuted : forall file cell ns dt last a e limit template steps scale c s,
  template_ok argsort (list_sum ns) template -> xdatcar_of cell ns steps file -> nth_error file 1 = Some scale -> value words num scale = Some s ->
  s <> 1 -> mdet cell <> 0 -> xdatcar file dt last a e limit false template = Ok c -> snd c <> mscale s cell.
Proof.
  intros file cell ns dt last a e limit template steps scale c s Ht Hd _ _ Hs Hdet E.
  assert (Ec : snd c = cell).
  { destruct Hd as [c0 sc la lb lc el cnt blocks Ha Hb Hc Hn HF]. revert E. unfold read_xdatcar. rewrite (fields_ok words num _ _ Ha), (fields_ok words num _ _ Hb), (fields_ok words num _ _ Hc). cbn [vec_of need bind].
    rewrite Hn, all_some_map. cbn [need bind]. destruct (xdatcar_loop _ _ _ _ _ _ _ _ _ _ _ _ _) as [st| | |]; try discriminate. cbn [bind].
    destruct (cut_last _ _ _) as [[t d]| | |]; try discriminate. cbn [bind]. intros E. injection E as <-. destruct cell as [[] [] []]. reflexivity. }
  rewrite Ec. intros F.
  assert (Z : forall g, In g [r0; r1; r2] -> forall h, In h [vx; vy; vz] -> h (g cell) = s * h (g cell)).
  { intros g Hg h Hh. rewrite F at 1. cbn in Hg, Hh. destruct Hg as [<-|[<-|[<-|[]]]]; destruct Hh as [<-|[<-|[<-|[]]]]; reflexivity. }
  apply Hdet. assert (Q : forall x, x = s * x -> x = 0). { intros x Hx. assert (G : (1 - s) * x = 0) by lra. apply Rmult_integral in G. destruct G; [lra|assumption]. }
  assert (A0 : vx (r0 cell) = 0) by (apply Q, Z; cbn; auto). assert (A1 : vy (r0 cell) = 0) by (apply Q, Z; cbn; auto). assert (A2 : vz (r0 cell) = 0) by (apply Q, Z; cbn; auto).
  unfold mdet. rewrite A0, A1, A2. ring.
Qed.
Theorem C62_unit_scale_partial : forall file cell ns dt last a e limit template steps,
  template_ok argsort (list_sum ns) template -> xdatcar_of cell ns steps file -> range_ok a e ->
  let w := window a e steps in (List.length w <= limit)%nat -> last_ok last w ->
  exists c, xdatcar file dt (option_map Z.of_nat last) a e limit false template = Ok (c, mscale 1 cell).
Proof.
  intros. eexists. assert (E : mscale 1 cell = cell) by (destruct cell as [[] [] []]; unfold mscale, vscale; cbn; rewrite !Rmult_1_l; reflexivity).
  rewrite E. eapply xdatcar_range; eassumption.
Qed.
End Statements.

(** C61: the columns are never looked up.  Any header with "vx vy" somewhere makes the dump a velocity dump and any other header with "x y" somewhere a
    position dump; whatever the columns are called, the first three numbers of each line are taken.  So with id and type columns in front, or with
    positions in front of velocities, other columns are reported as coordinates. *)
Lemma contains_middle : forall a sub b, sub <> ""%string -> contains (a ++ sub ++ b)%string sub = true.
Proof.
  intros a sub b Hs. unfold contains. destruct (String.index 0 sub (a ++ sub ++ b)%string) eqn:E; [reflexivity|]. exfalso.
  assert (Q := index_correct3 0 (String.length a) sub (a ++ sub ++ b)%string E Hs (Nat.le_0_l _)). apply Q.
  clear. induction a as [|c a IH]; cbn [String.append String.length]; [|exact IH].
  induction sub as [|c sub IH]; [destruct b; reflexivity|]. cbn [String.append String.length]. change (String c (substring 0 (String.length sub) (sub ++ b)) = String c sub). rewrite IH. reflexivity.
Qed.
Theorem C61_columns_refuted :
  (forall a b, label_of (a ++ "vx vy" ++ b)%string = Velocities) /\
  (forall a b, contains (a ++ "x y" ++ b)%string "vx vy" = false -> label_of (a ++ "x y" ++ b)%string = Positions) /\
  label_of "ITEM: ATOMS id type x y z" = Positions /\ label_of "ITEM: ATOMS x y z vx vy vz" = Velocities /\
  forall (L T : Type) (words : L -> list T) (num : T -> option R) l w1 w2 w3 rest i t x,
  words l = w1 :: w2 :: w3 :: rest -> num w1 = Some i -> num w2 = Some t -> num w3 = Some x -> row3 words num l = Some [i; t; x].
Proof.
  split; [|split; [|split; [reflexivity|split; [reflexivity|]]]].
  - intros a b. unfold label_of. rewrite contains_middle by discriminate. reflexivity.
  - intros a b H. unfold label_of. rewrite H, contains_middle by discriminate. reflexivity.
  - intros. unfold row3. rewrite H. cbn. rewrite H0, H1, H2. reflexivity.
Qed.
Theorem C61_columns_partial : forall rest,
  (contains ("ITEM: ATOMS x y z" ++ rest) "vx vy" = false -> label_of ("ITEM: ATOMS x y z" ++ rest) = Positions) /\
  label_of ("ITEM: ATOMS vx vy vz" ++ rest) = Velocities.
Proof.
  intros rest. split.
  - intros H. unfold label_of. rewrite H. unfold contains. cbn. destruct rest; reflexivity.
  - unfold label_of, contains. cbn. destruct rest; reflexivity.
Qed.

(** Concrete files: words are strings, a line is its words. *)
Section Witness.
Definition w_has (kw : string) (l : list string) : bool := contains (String.concat " " l) kw.
Definition w_num (w : string) : option R :=
  if String.eqb w "0" then Some 0 else if String.eqb w "1" then Some 1 else if String.eqb w "2" then Some 2 else if String.eqb w "5" then Some 5 else None.
Definition w_int (w : string) : option nat := if String.eqb w "1" then Some 1%nat else None.
Definition w_kind (l : list string) : label_kind := label_of (String.concat " " l).
Definition w_words (l : list string) : list string := l.
Definition w_eq (l : list string) : option R := match l with [_; _; w] => w_num w | _ => None end.
Definition w_block (t x : string) : list (list string) :=
  [["ITEM:"; "TIMESTEP"]; [t]; ["ITEM:"; "NUMBER"; "OF"; "ATOMS"]; ["1"]; ["ITEM:"; "BOX"; "BOUNDS"; "pp"; "pp"; "pp"]; ["0"; "5"]; ["0"; "5"]; ["0"; "5"];
   ["ITEM:"; "ATOMS"; "x"; "y"; "z"]; [x; "0"; "1"]]%string.
Definition w_box : box := MkBox 0 5 0 5 0 5 0 0 0.
Lemma w_block_ok t x tr xr : In (t, tr) [("0"%string, 0); ("1"%string, 1)] -> In (x, xr) [("1"%string, 1); ("2"%string, 2); ("5"%string, 5)] ->
  lammps_block w_has w_words w_num w_int 1 w_box (fun l => w_kind l = Positions) (tr, [V3 xr 0 1]) (w_block t x).
Proof.
  intros Ht Hx. cbn in Ht, Hx.
  assert (K : w_num t = Some tr /\ w_num x = Some xr /\ quiet w_has "TIMESTEP" [[t]; [x; "0"; "1"]%string] /\ quiet w_has "NUMBER OF ATOMS" [[t]] /\ quiet w_has "BOX BOUNDS" [[t]] /\ quiet w_has "ITEM: ATOMS" [[t]]).
  { repeat match goal with H : _ \/ _ |- _ => destruct H end; try contradiction; repeat match goal with H : (_, _) = (_, _) |- _ => injection H as <- <- end; repeat split; repeat constructor. }
  destruct K as (K1 & K2 & K3 & K4 & K5 & K6).
  assert (G : forall kw l r, quiet w_has kw (l :: r) -> w_has kw l = false) by (intros kw l r H; inversion H; assumption).
  assert (G2 : forall kw l r, quiet w_has kw (l :: r) -> quiet w_has kw r) by (intros kw l r H; inversion H; assumption).
  unfold w_block. apply (lb w_has w_words w_num w_int 1 w_box (fun l => w_kind l = Positions) ["ITEM:"; "TIMESTEP"]%string [t] ["ITEM:"; "NUMBER"; "OF"; "ATOMS"]%string ["1"]%string ["ITEM:"; "BOX"; "BOUNDS"; "pp"; "pp"; "pp"]%string ["0"; "5"]%string ["0"; "5"]%string ["0"; "5"]%string ["ITEM:"; "ATOMS"; "x"; "y"; "z"]%string [[x; "0"; "1"]%string] tr [V3 xr 0 1]).
  - reflexivity.
  - unfold writes_numbers, w_words. cbn [map]. rewrite K1. reflexivity.
  - reflexivity.
  - exists "1"%string. split; reflexivity.
  - reflexivity.
  - right. cbn. repeat split; repeat constructor.
  - reflexivity.
  - reflexivity.
  - reflexivity.
  - constructor; [|constructor]. unfold writes_atom, w_words. cbn [firstn map]. rewrite K2. reflexivity.
  - repeat (apply List.Forall_cons; [first [reflexivity | exact (G _ _ _ K3) | exact (G _ _ _ (G2 _ _ _ K3))]|]). constructor.
  - repeat (apply List.Forall_cons; [first [reflexivity | exact (G _ _ _ K4)]|]). constructor.
  - repeat (apply List.Forall_cons; [first [reflexivity | exact (G _ _ _ K5)]|]). constructor.
  - repeat (apply List.Forall_cons; [first [reflexivity | exact (G _ _ _ K6)]|]). constructor.
Qed.
Definition w_dump : list (list string) := (w_block "0" "1" ++ w_block "1" "2" ++ w_block "1" "5")%list.
Definition w_steps : list (R * list vec) := [(0, [V3 1 0 1]); (1, [V3 2 0 1]); (1, [V3 5 0 1])].
Lemma w_dump_ok : lammps_dump w_has w_words w_num w_int 1 w_box (fun l => w_kind l = Positions) w_steps w_dump.
Proof.
  exists [w_block "0" "1"; w_block "1" "2"; w_block "1" "5"]. split; [|reflexivity].
  repeat (apply List.Forall2_cons; [apply w_block_ok; cbn; auto 6|]). constructor.
Qed.
Definition w_xdatcar : list (list string) :=
  [["GaN"]; ["1"]; ["5"; "0"; "0"]; ["0"; "5"; "0"]; ["0"; "0"; "5"]; ["H"]; ["1"];
   ["Direct"; "configuration="; "1"]; ["1"; "0"; "1"]; ["Direct"; "configuration="; "2"]; ["2"; "0"; "1"]]%string.
Lemma w_xdatcar_ok : xdatcar_file w_has w_words w_num w_int (fun l t => w_eq l = Some t) (mdiag 5 5 5) [1%nat] [(1, [V3 1 0 1]); (2, [V3 2 0 1])] w_xdatcar.
Proof.
  apply (xf w_has w_words w_num w_int (fun l t => w_eq l = Some t) (mdiag 5 5 5) [1%nat] _ ["GaN"]%string ["1"]%string ["5"; "0"; "0"]%string ["0"; "5"; "0"]%string ["0"; "0"; "5"]%string ["H"]%string ["1"]%string
    [[["Direct"; "configuration="; "1"]; ["1"; "0"; "1"]]; [["Direct"; "configuration="; "2"]; ["2"; "0"; "1"]]]%string); try reflexivity.
  repeat (apply List.Forall2_cons; [constructor; try reflexivity; repeat constructor|]). constructor.
Qed.
Definition w_energy (l : list string) : option R := match l with [_; w] => w_num w | _ => None end.
Definition w_outcar : list (list string) :=
  [["header"]; ["NIONS ="; "1"]; ["POTIM  ="; "1"]; ["direct"; "lattice"; "vectors"]; ["POSITION"]; ["---"]; ["1"; "0"; "1"]; ["other"]; ["energy("; "1"]; ["POSITION"]; ["---"]; ["2"; "0"; "1"]; ["energy("; "2"]; ["end"]]%string.
Lemma w_outcar_ok : outcar_file w_has w_words w_num (fun l k => (match l with [_; w] => w_int w | _ => None end) = Some k) (fun l t => w_energy l = Some t) (fun l t => w_energy l = Some t) 1 1
  [(1, [V3 1 0 1]); (2, [V3 2 0 1])] w_outcar.
Proof.
  apply (of_ w_has w_words w_num _ _ _ 1 1 _ [["header"]]%string [] [] [["end"]]%string ["NIONS ="; "1"]%string ["POTIM  ="; "1"]%string ["direct"; "lattice"; "vectors"]%string
    [[["POSITION"]; ["---"]; ["1"; "0"; "1"]; ["other"]; ["energy("; "1"]]; [["POSITION"]; ["---"]; ["2"; "0"; "1"]; ["energy("; "2"]]]%string); try reflexivity; try (repeat constructor).
  - apply (ob w_has w_words w_num _ 1 [] ["POSITION"]%string ["---"]%string [["1"; "0"; "1"]]%string [["other"]]%string ["energy("; "1"]%string 1 [V3 1 0 1]); try reflexivity; repeat constructor.
  - apply (ob w_has w_words w_num _ 1 [] ["POSITION"]%string ["---"]%string [["2"; "0"; "1"]]%string [] ["energy("; "2"]%string 2 [V3 2 0 1]); try reflexivity; repeat constructor.
Qed.
Definition w_inv (m : mat) : mat := m.
Definition w_argsort (t : list R) : list nat := seq 0 (List.length t).
(** steps 2..3 of a three step dump; steps 2..2 of OUTCAR and XDATCAR files *)
Example C38_nonvacuous : lammps_dump w_has w_words w_num w_int 1 w_box (fun l => w_kind l = Positions) w_steps w_dump /\ same_angles (mdiag 1 1 1) (box_lattice w_box) /\ mdet (mdiag 1 1 1) <> 0.
Proof. split; [exact w_dump_ok|]. split; [unfold same_angles, cosine, vdot; cbn; repeat split; field; repeat split; unfold vnorm, vnorm2, vdot; cbn; apply Rgt_not_eq, sqrt_lt_R0; nra|unfold mdet, mdiag; cbn; lra]. Qed.
Example C39_nonvacuous : range_ok 2 (Some 3%nat) /\ window 2 (Some 3%nat) w_steps = [(1, [V3 2 0 1]); (1, [V3 5 0 1])] /\ last_ok (Some 1%nat) (window 2 (Some 3%nat) w_steps) /\ outcar_file w_has w_words w_num (fun l k => (match l with [_; w] => w_int w | _ => None end) = Some k) (fun l t => w_energy l = Some t) (fun l t => w_energy l = Some t) 1 1 [(1, [V3 1 0 1]); (2, [V3 2 0 1])] w_outcar.
Proof. split; [cbn; lia|]. split; [reflexivity|]. split; [split; [lia|discriminate]|exact w_outcar_ok]. Qed.
Example C40_nonvacuous : xdatcar_file w_has w_words w_num w_int (fun l t => w_eq l = Some t) (mdiag 5 5 5) [1%nat] [(1, [V3 1 0 1]); (2, [V3 2 0 1])] w_xdatcar /\ window 2 None [(1, [V3 1 0 1]); (2, [V3 2 0 1])] = [(2, [V3 2 0 1])].
Proof. split; [exact w_xdatcar_ok|reflexivity]. Qed.
(** reading the concrete XDATCAR from step 2: two time stamps for one step *)
Example C40_witness : read_xdatcar w_has w_words w_num w_int w_eq w_argsort w_xdatcar 1 None 2 None 100 false None = Ok (MkContent [1 * 1; 2 * 1] [[V3 2 0 1]], mdiag 5 5 5).
Proof. reflexivity. Qed.
Example C41_witness : read_xdatcar w_has w_words w_num w_int w_eq w_argsort w_xdatcar 1 None 1 (Some 2%nat) 100 true None = Ok (MkContent [1 * 1; 2 * 1] [[V3 0 0 0]; [V3 2 0 1]], mdiag 5 5 5).
Proof. reflexivity. Qed.
Example C39_witness : exists c, read_outcar w_has w_words w_num w_argsort (fun l => match l with [_; w] => w_int w | _ => None end) w_energy w_energy w_outcar None 2 (Some 2%nat) 100 None = Ok (c, [1]) /\ c_data c = [[V3 1 0 1]].
Proof. eexists. split; reflexivity. Qed.
Example C42_nonvacuous : sorts (map INR [1; 2; 0]%nat) [2; 0; 1]%nat /\ Permutation [1; 2; 0]%nat (seq 0 3).
Proof.
  split; [split|].
  - cbn. apply Permutation_trans with [0; 2; 1]%nat; [apply perm_swap|apply perm_skip, perm_swap].
  - intros i j H. cbn [map List.length] in H. destruct i as [|[|[|i]]]; destruct j as [|[|[|j]]]; try lia; cbn; lra.
  - cbn. apply Permutation_trans with [1; 0; 2]%nat; [apply perm_skip, perm_swap|apply perm_swap].
Qed.
End Witness.
Print Assumptions C38_lattice.
Print Assumptions C38_same_angles_needed.
Print Assumptions C38_write_read.
Print Assumptions C39_lammps_partial.
Print Assumptions C39_xdatcar_partial.
Print Assumptions C39_outcar_characterised.
Print Assumptions C39_outcar_refuted.
Print Assumptions C40_lammps_partial.
Print Assumptions C40_xdatcar_partial.
Print Assumptions C40_xdatcar_refuted.
Print Assumptions C40_outcar_partial.
Print Assumptions C41_lammps_partial.
Print Assumptions C41_lammps_short_refuted.
Print Assumptions C41_last_steps_refuted.
Print Assumptions C41_xdatcar_refuted.
Print Assumptions C42_permutation.
Print Assumptions C42_position.
Print Assumptions C42_inverse.
Print Assumptions C60_limit_refuted.
Print Assumptions C60_bounded_partial.
Print Assumptions C61_columns_refuted.
Print Assumptions C61_columns_partial.
Print Assumptions C62_scale_refuted.
Print Assumptions C62_unit_scale_partial.
