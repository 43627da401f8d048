(** C44, C45: data saved to HDF5 files. *)
From Verif Require Import Base Rounding DynamicsModel DynamicsProofs Hdf5Model Hdf5Proofs Hdf5Spec.
From Coq Require Import List.
Open Scope nat_scope.

Definition saved {A} (r : run A) : h5file A := save_data_hdf5 (time r) (dims r) (trajectory r) (velocity r) (projected r) (wave_vector r).
(** C44: loading a saved file gives back what was saved; the trajectory only when asked for *)
Theorem C44_roundtrip_partial : forall A (r : run A) read_trajectory, projected r = None ->
  initialize_from_hdf5_file (saved r) read_trajectory 1 None =
  Some (LDynamics (MkArgs (if read_trajectory then trajectory r else None) (velocity r) (time r) (dims r))).
Proof. intros A r rt H. unfold saved. rewrite load_saved, H. cbn [Z.sub Z.add Z.opp Z.pos_sub]. rewrite !cut_all. reflexivity. Qed.
Theorem C44_projected_roundtrip_partial : forall A (r : run A) v read_trajectory, projected r = Some v ->
  initialize_from_hdf5_file (saved r) read_trajectory 1 None = Some (LProjected v (wave_vector r) (MkArgs None None (time r) (dims r))).
Proof. intros A r v rt H. unfold saved. rewrite load_saved, H. cbv zeta. do 2 f_equal. exact (slice_nat 0 v). Qed.
(** with --read_from a --read_to b, exactly the steps a..b of trajectory, velocity and projected velocity are kept *)
Theorem C44_window_partial : forall A (r : run A) a b tr ve, 1 <= a -> projected r = None -> trajectory r = Some tr -> velocity r = Some ve ->
  exists tr' ve', initialize_from_hdf5_file (saved r) true (Z.of_nat a) (Some (Z.of_nat b)) = Some (LDynamics (MkArgs (Some tr') (Some ve') (time r) (dims r))) /\
  steps a b tr tr' /\ steps a b ve ve'.
Proof.
  intros A r a b tr ve Ha Hp Ht Hv. exists (firstn (b - (a - 1)) (skipn (a - 1) tr)), (firstn (b - (a - 1)) (skipn (a - 1) ve)).
  split; [|split; apply steps_window; exact Ha]. unfold saved. rewrite load_saved, Hp, Ht, Hv. cbn [option_map]. replace (Z.of_nat a - 1)%Z with (Z.of_nat (a - 1)) by lia. rewrite !slice_window. reflexivity.
Qed.
Theorem C44_window_projected_partial : forall A (r : run A) a b v rt, 1 <= a -> projected r = Some v ->
  exists v', initialize_from_hdf5_file (saved r) rt (Z.of_nat a) (Some (Z.of_nat b)) = Some (LProjected v' (wave_vector r) (MkArgs None None (time r) (dims r))) /\ steps a b v v'.
Proof.
  intros A r a b v rt Ha Hp. exists (firstn (b - (a - 1)) (skipn (a - 1) v)). split; [|apply steps_window; exact Ha].
  unfold saved. rewrite load_saved, Hp. replace (Z.of_nat a - 1)%Z with (Z.of_nat (a - 1)) by lia. rewrite slice_window. reflexivity.
Qed.
(** Refuted: the time axis is not cut.  Whenever the window leaves out a step, the loaded time has more entries than the
    loaded velocity. *)
Theorem C44_time_window_refuted : forall A (r : run A) a b ve, 1 <= a -> projected r = None -> velocity r = Some ve ->
  length (time r) = length ve -> 0 < length ve -> (1 < a \/ b < length ve) ->
  exists d ve', initialize_from_hdf5_file (saved r) true (Z.of_nat a) (Some (Z.of_nat b)) = Some (LDynamics d) /\
  a_velocity d = Some ve' /\ length ve' < length (a_time d).
Proof.
  intros A r a b ve Ha Hp Hv El H0 Hc. unfold saved. rewrite load_saved, Hp, Hv. cbv zeta. eexists _, _. split; [reflexivity|]. cbn [a_velocity a_time option_map]. split; [reflexivity|].
  replace (Z.of_nat a - 1)%Z with (Z.of_nat (a - 1)) by lia. rewrite slice_window, firstn_length, skipn_length. lia.
Qed.
(** Refuted: --read_from 0 keeps only the last step. *)
Theorem C44_read_from_zero_refuted : forall A (r : run A) h x, projected r = None -> velocity r = Some (h ++ [x]) ->
  exists d, initialize_from_hdf5_file (saved r) true 0 None = Some (LDynamics d) /\ a_velocity d = Some [x].
Proof.
  intros A r h x Hp Hv. unfold saved. rewrite load_saved, Hp, Hv. cbv zeta. eexists. split; [reflexivity|]. cbn [a_velocity option_map]. f_equal.
  unfold slice, bound. rewrite app_length. cbn [length]. change (0 - 1 <? 0)%Z with true. cbv iota.
  replace (Z.to_nat (Z.max 0 (Z.of_nat (length h + 1) + (0 - 1)))) with (length h) by lia.
  rewrite skipn_app, skipn_all, Nat.sub_diag. cbn [skipn app]. replace (length h + 1 - length h) with 1 by lia. reflexivity.
Qed.
(** the supercell: the lattice built from the saved numbers has those numbers as cell size relation again *)
Theorem C44_supercell : forall tol cell nx ny nz, (0 <= tol)%R -> (0 < vnorm (r0 cell))%R -> (0 < vnorm (r1 cell))%R -> (0 < vnorm (r2 cell))%R ->
  supercell_matrix tol (loaded_lattice nx ny nz cell) cell = Some (Z.of_nat nx, Z.of_nat ny, Z.of_nat nz).
Proof.
  intros tol cell nx ny nz Ht H0 H1 H2. unfold supercell_matrix, loaded_lattice, mmul. cbn [r0 r1 r2 mdiag].
  assert (Nm : forall n v, (0 < vnorm v)%R -> (vnorm (vscale (INR n) v) / vnorm v = IZR (Z.of_nat n))%R).
  { intros n v Hv. rewrite <- INR_IZR_INZ. assert (E : vnorm (vscale (INR n) v) = (INR n * vnorm v)%R).
    { unfold vnorm. replace (vnorm2 (vscale (INR n) v)) with (INR n * INR n * vnorm2 v)%R by (unfold vnorm2, vdot, vscale; cbn [vx vy vz]; ring).
      rewrite sqrt_mult; [rewrite sqrt_square by apply pos_INR; reflexivity|apply Rmult_le_pos; apply pos_INR|unfold vnorm2, vdot; nra]. }
    rewrite E. field. lra. }
  assert (E0 : vmul (V3 (INR nx) 0 0) cell = vscale (INR nx) (r0 cell)) by (apply vec_eq; unfold vmul, vadd, vscale; cbn [vx vy vz]; ring).
  assert (E1 : vmul (V3 0 (INR ny) 0) cell = vscale (INR ny) (r1 cell)) by (apply vec_eq; unfold vmul, vadd, vscale; cbn [vx vy vz]; ring).
  assert (E2 : vmul (V3 0 0 (INR nz)) cell = vscale (INR nz) (r2 cell)) by (apply vec_eq; unfold vmul, vadd, vscale; cbn [vx vy vz]; ring).
  rewrite E0, E1, E2, !Nm by assumption. rewrite !around_IZR. destruct (Rlt_dec _ _) as [F|F]; [exfalso|reflexivity].
  match type of F with (_ < Rabs (?a / _))%R => replace a with 0%R in F by ring end. unfold Rdiv in F. rewrite Rmult_0_l, Rabs_R0 in F. lra.
Qed.

(** C45: files with the same kinds of data are joined in order, each without its first steps *)
Lemma read_saved {A} (r : run A) : well_saved r -> read_file (saved r) = Some (MkContents (projected r) (velocity r) (trajectory r) (time r) (dims r) (match projected r with Some _ => wave_vector r | None => None end)).
Proof.
  intros H. unfold read_file, saved. destruct (saved_lookup (time r) (dims r) (trajectory r) (velocity r) (projected r) (wave_vector r)) as (-> & -> & -> & -> & -> & ->).
  unfold well_saved in H. destruct (projected r); [|reflexivity]. destruct (wave_vector r); [reflexivity|]. exfalso. apply H; [discriminate|reflexivity].
Qed.
Lemma glue {A} first (ds : list (option (list A))) : Forall (fun d => d <> None) ds -> glued first ds (concat (map (fun d => match d with Some d => skipn first d | None => [] end) ds)).
Proof.
  intros H. exists (map (fun d => match d with Some d => skipn first d | None => [] end) ds). split; [|reflexivity].
  induction H as [|d ds Hd H IH]; cbn; constructor; [|exact IH]. destruct d as [d|]; [|congruence]. exists d. split; [reflexivity|apply without_first_skipn].
Qed.
Lemma joined {A} first vo (r0 : run A) rs : alike r0 rs -> Forall well_saved (r0 :: rs) ->
  let all (g : run A -> option (list A)) := match g r0 with Some _ => Some (concat (map (fun d => match d with Some d => skipn first d | None => [] end) (map g (r0 :: rs)))) | None => None end in
  concath5 (Z.of_nat first) vo (map saved (r0 :: rs)) = Some (write_file (time r0) (dims r0) (if vo then None else all trajectory) (all velocity) (if vo then None else all projected) (match projected r0 with Some _ => wave_vector r0 | None => None end)).
Proof.
  intros Hal Hw all. inversion Hw as [|? ? Hw0 Hws]; subst.
  set (C := fun r : run A => MkContents (projected r) (velocity r) (trajectory r) (time r) (dims r) (match projected r with Some _ => wave_vector r | None => None end)).
  cbn [map]. rewrite (concath5_spec first vo (saved r0) (map saved rs) (C r0) (map C rs)).
  - unfold all. cbn [map C c_trajectory c_velocity c_vc c_time c_super_cell c_q]. rewrite !map_map. reflexivity.
  - apply read_saved, Hw0.
  - rewrite !map_map. apply map_ext_in. intros r Hr. apply read_saved. rewrite Forall_forall in Hws. apply Hws, Hr.
  - intros _ H. apply Forall_forall. intros c Hc. apply in_map_iff in Hc. destruct Hc as (r & <- & Hr). unfold alike in Hal. rewrite Forall_forall in Hal. apply (Hal r Hr), H.
  - intros H. apply Forall_forall. intros c Hc. apply in_map_iff in Hc. destruct Hc as (r & <- & Hr). unfold alike in Hal. rewrite Forall_forall in Hal. apply (Hal r Hr), H.
  - intros _ H. apply Forall_forall. intros c Hc. apply in_map_iff in Hc. destruct Hc as (r & <- & Hr). unfold alike in Hal. rewrite Forall_forall in Hal. apply (Hal r Hr), H.
Qed.
Theorem C45_concatenates_partial : forall A first velocity_only (r0 : run A) rs, alike r0 rs -> Forall well_saved (r0 :: rs) ->
  exists out, concath5 (Z.of_nat first) velocity_only (map saved (r0 :: rs)) = Some out /\
  (velocity r0 <> None -> exists w, lookup "velocity" out = Some w /\ glued first (map velocity (r0 :: rs)) w) /\
  (velocity_only = false -> trajectory r0 <> None -> exists w, lookup "trajectory" out = Some w /\ glued first (map trajectory (r0 :: rs)) w) /\
  (velocity_only = false -> projected r0 <> None -> exists w, lookup "vc" out = Some w /\ glued first (map projected (r0 :: rs)) w) /\
  (velocity_only = true -> lookup "trajectory" out = None /\ lookup "vc" out = None) /\
  lookup "super_cell" out = Some (dims r0).
Proof.
  intros A first vo r0 rs Hal Hw. eexists. split; [apply joined; assumption|].
  match goal with |- context [lookup _ (write_file ?t ?s ?tr ?ve ?v ?q)] => destruct (written_lookup t s tr ve v q) as (_ & -> & -> & -> & -> & _) end.
  unfold alike in Hal. rewrite Forall_forall in Hal.
  assert (G : forall g : run A -> option (list A), g r0 <> None -> (forall r, In r rs -> g r0 <> None -> g r <> None) -> exists w, (match g r0 with Some _ => Some (concat (map (fun d => match d with Some d => skipn first d | None => [] end) (map g (r0 :: rs)))) | None => None end) = Some w /\ glued first (map g (r0 :: rs)) w).
  { intros g H0 H1. destruct (g r0) eqn:E; [|congruence]. eexists. split; [reflexivity|]. apply glue. apply Forall_forall. intros d Hd. apply in_map_iff in Hd. destruct Hd as (r & <- & [<-|Hr]); [congruence|apply H1; [exact Hr|discriminate]]. }
  repeat split.
  - intros H. apply G; [exact H|]. intros r Hr. apply (Hal r Hr).
  - intros -> H. apply G; [exact H|]. intros r Hr. apply (Hal r Hr).
  - intros -> H. apply G; [exact H|]. intros r Hr. apply (Hal r Hr).
  - rewrite H; reflexivity.
  - rewrite H; reflexivity.
Qed.
(** Refuted: the time axis of the result is the one of the first file, whatever is joined; with two or more non-empty files it
    is too short. *)
Theorem C45_time_refuted : forall A velocity_only (r0 : run A) rs, alike r0 rs -> Forall well_saved (r0 :: rs) ->
  Forall (fun r => exists ve, velocity r = Some ve /\ length (time r) = length ve /\ 0 < length ve) (r0 :: rs) -> rs <> [] ->
  exists out t ve, concath5 0 velocity_only (map saved (r0 :: rs)) = Some out /\ lookup "time" out = Some t /\ lookup "velocity" out = Some ve /\
  t = time r0 /\ length t < length ve.
Proof.
  intros A vo r0 rs Hal Hw Hl Hne. assert (J := joined 0 vo r0 rs Hal Hw). cbv beta zeta in J. change (Z.of_nat 0) with 0%Z in J.
  inversion Hl as [|? ? (ve0 & V0 & L0 & _) Hls]; subst. rewrite V0 in J. rewrite J.
  match goal with |- context [write_file ?t ?s ?tr ?ve ?v ?q] => destruct (written_lookup t s tr ve v q) as (T & _ & _ & V & _ & _) end.
  eexists _, _, _. split; [reflexivity|]. split; [exact T|]. split; [exact V|]. split; [reflexivity|].
  destruct rs as [|r1 rs]; [congruence|]. inversion Hls as [|? ? (ve1 & V1 & L1 & P1) _]; subst. cbn [map concat]. rewrite V0, V1. cbn [skipn]. rewrite !app_length. lia.
Qed.
(** and with one file whose first steps are skipped it is too long *)
Theorem C45_time_skipped_refuted : forall A velocity_only first (r : run A) ve, well_saved r -> velocity r = Some ve -> length (time r) = length ve -> 0 < first -> 0 < length ve ->
  exists out t w, concath5 (Z.of_nat first) velocity_only [saved r] = Some out /\ lookup "time" out = Some t /\ lookup "velocity" out = Some w /\ length w < length t.
Proof.
  intros A vo first r ve Hw V L F P. assert (J := joined first vo r [] (Forall_nil _) (Forall_cons _ Hw (Forall_nil _))). cbv beta zeta in J. rewrite V in J. cbn [map] in J. rewrite J.
  match goal with |- context [write_file ?t ?s ?tr ?ve ?v ?q] => destruct (written_lookup t s tr ve v q) as (T & _ & _ & W & _ & _) end.
  eexists _, _, _. split; [reflexivity|]. split; [exact T|]. split; [exact W|]. rewrite V. cbn [concat]. rewrite app_nil_r, skipn_length. lia.
Qed.
(** Refuted: data the first file does not have is dropped from the result without notice. *)
Theorem C45_dropped_refuted : forall A first velocity_only (r0 : run A) rs, alike r0 rs -> Forall well_saved (r0 :: rs) -> velocity r0 = None ->
  exists out, concath5 (Z.of_nat first) velocity_only (map saved (r0 :: rs)) = Some out /\ lookup "velocity" out = None.
Proof.
  intros A first vo r0 rs Hal Hw H0. assert (J := joined first vo r0 rs Hal Hw). cbv beta zeta in J. rewrite H0 in J. rewrite J.
  match goal with |- context [write_file ?t ?s ?tr ?ve ?v ?q] => destruct (written_lookup t s tr ve v q) as (_ & _ & _ & V & _ & _) end. eexists. split; [reflexivity|exact V].
Qed.
(** a file that lacks the velocity the first file has aborts the run: no output is written *)
Theorem C45_missing_aborts : forall A first velocity_only (r0 : run A) rs, Forall well_saved (r0 :: rs) -> velocity r0 <> None -> (exists r, In r rs /\ velocity r = None) ->
  concath5 first velocity_only (map saved (r0 :: rs)) = None.
Proof.
  intros A first vo r0 rs Hw H0 (r & Hr & Hv). inversion Hw as [|? ? Hw0 Hws]; subst. cbn [map concath5]. rewrite read_saved by exact Hw0. cbn [c_velocity c_trajectory c_vc c_time c_super_cell c_q].
  destruct (velocity r0) as [ve|] eqn:E; [|congruence]. cbn [option_map]. rewrite extend_all_missing; [reflexivity|].
  eexists (saved r), _. split; [apply in_map, Hr|]. split; [apply read_saved; rewrite Forall_forall in Hws; apply Hws, Hr|exact Hv].
Qed.

Example C44_nonvacuous : let r := MkRun [10; 20; 30] [2; 2; 2] (Some [1; 2; 3]) (Some [4; 5; 6]) None None in
  initialize_from_hdf5_file (saved r) true 2 (Some 3%Z) = Some (LDynamics (MkArgs (Some [2; 3]) (Some [5; 6]) [10; 20; 30] [2; 2; 2])).
Proof. reflexivity. Qed.
Example C45_nonvacuous : let r := MkRun [10; 20; 30] [2; 2; 2] (Some [1; 2; 3]) (Some [4; 5; 6]) None None in let s := MkRun [10; 20] [2; 2; 2] (Some [7; 8]) (Some [9; 0]) None None in
  alike r [s] /\ Forall well_saved [r; s] /\ option_map (lookup "velocity") (concath5 1 false (map saved [r; s])) = Some (Some [5; 6; 0]).
Proof.
  intros r s. split; [|split].
  - apply Forall_cons; [|apply Forall_nil]. repeat split; intros H; first [discriminate|intros _; exact (H eq_refl)].
  - apply Forall_cons; [|apply Forall_cons; [|apply Forall_nil]]; intros H; exfalso; apply H; reflexivity.
  - reflexivity.
Qed.
Print Assumptions C44_roundtrip_partial.
Print Assumptions C44_projected_roundtrip_partial.
Print Assumptions C44_window_partial.
Print Assumptions C44_window_projected_partial.
Print Assumptions C44_time_window_refuted.
Print Assumptions C44_read_from_zero_refuted.
Print Assumptions C44_supercell.
Print Assumptions C45_concatenates_partial.
Print Assumptions C45_time_refuted.
Print Assumptions C45_time_skipped_refuted.
Print Assumptions C45_dropped_refuted.
Print Assumptions C45_missing_aborts.
