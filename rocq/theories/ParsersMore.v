From Verif Require Import ParsersModel ParsersSpec ParsersProofs.
From Coq Require Import Permutation.
Local Open Scope nat_scope.

Lemma neg_slice_last {A} n (l : list A) : 0 < n -> neg_slice (Z.of_nat n) l = last_n n l.
Proof. intros H. unfold neg_slice, last_n. destruct (Z.ltb_spec 0 (Z.of_nat n)) as [_|F]; [|lia]. rewrite Nat2Z.id. reflexivity. Qed.
Lemma cut_last_ok {A B} last (t : list A) (d : list B) : last_ok last d -> cut_last (option_map Z.of_nat last) t d = Ok (last_opt last t, last_opt last d).
Proof.
  destruct last as [n|]; [|reflexivity]. intros [Hn Hd]. cbn. destruct d as [|x d]; [congruence|]. rewrite !neg_slice_last by exact Hn. reflexivity.
Qed.
Lemma last_n_map {A B} (f : A -> B) n l : map f (last_n n l) = last_n n (map f l).
Proof. unfold last_n. rewrite map_length, skipn_map. reflexivity. Qed.
Lemma last_opt_map {A B} (f : A -> B) n l : map f (last_opt n l) = last_opt n (map f l).
Proof. destruct n; [apply last_n_map|reflexivity]. Qed.
Lemma window_stop {A} a b limit (l : list A) : (match b with Some b => a <= b | None => True end) -> List.length (window a b l) <= limit ->
  window a (Some (stop a b limit)) l = window a b l.
Proof.
  unfold window, stop. intros Hb H. destruct b as [b|].
  - destruct (Nat.le_gt_cases b (limit + a + 1)) as [F|F]; [rewrite Nat.min_l by exact F; reflexivity|]. rewrite Nat.min_r by lia.
    rewrite skipn_length, firstn_length in H. rewrite !firstn_all2 by lia. reflexivity.
  - rewrite skipn_length in H. rewrite firstn_all2 by lia. reflexivity.
Qed.
(** at most limit + 2 steps (initial_cut >= 1) *)
Lemma window_le {A} a b (l : list A) : List.length (window a (Some b) l) <= b - (a - 1).
Proof. unfold window. rewrite skipn_length, firstn_length. lia. Qed.
Lemma stop_pos a b limit : (match b with Some b => a <= b /\ 1 <= b | None => True end) -> a <= stop a b limit /\ 1 <= stop a b limit.
Proof. unfold stop. destruct b; intros; lia. Qed.
Lemma lam_skip_fold l : forall d, fold_left lam_skip l ([], d) = ([], d).
Proof. induction l as [|x l IH]; intros d; [reflexivity|]. cbn [fold_left]. unfold lam_skip at 2. cbn [snd]. apply IH. Qed.

Lemma update_app {A} (l1 : list A) x y l2 : update (List.length l1) x (l1 ++ y :: l2) = Some (l1 ++ x :: l2).
Proof. induction l1 as [|z l1 IH]; [reflexivity|]. cbn. rewrite IH. reflexivity. Qed.

Section Readers.
Context {L T : Type} (has : string -> L -> bool) (words : L -> list T) (num : T -> option R) (int : T -> option nat)
        (after_eq : L -> option R) (kind : L -> label_kind) (argsort : list R -> list nat) (inv : mat -> mat).
Notation quiet := (@quiet L has).

(* ---------- LAMMPS, in memory ---------- *)
Lemma lammps_window cell n bx (is_label : L -> Prop) k file dt last a b limit template steps :
  template_ok argsort n template -> k <> Unrecognised -> (forall l, is_label l -> kind l = k) -> lammps_dump has words num int n bx is_label steps file -> steps <> [] ->
  (match b with Some b => a <= b /\ 1 <= b | None => True end) ->
  let w := window a (Some (stop a b limit)) steps in last_ok last w ->
  read_lammps has words num int kind argsort inv file cell dt (option_map Z.of_nat last) a b limit false template =
  Ok (MkLR k (MkContent (map (fun s => fst s * dt)%R (last_opt last w))
                        (map (fun s => map (fun v => vmul v (transformation inv cell (box_lattice bx))) (arrange argsort template (snd s))) (last_opt last w)))
             (mmul (box_lattice bx) (transformation inv cell (box_lattice bx)))).
Proof.
  intros Ht Hk Hl Hd Hne Hb w Hlast. destruct (stop_pos a b limit Hb) as [S1 S2].
  assert (Hsim : sim lam_skip (lam_take argsort inv cell a false template n bx) a b limit steps 0 ([], []) =
    Some (map fst (map (lam_item argsort inv cell template n bx) w), map snd (map (lam_item argsort inv cell template n bx) w))).
  { rewrite sim_window by assumption. rewrite lam_skip_fold. fold w. unfold lam_take.
    assert (X := takes_append (lam_item argsort inv cell template n bx) w (a - 1) [] []). exact X. }
  assert (Hm : memmap_ok a b false) by (intros F; discriminate).
  rewrite (read_lammps_sim has words num int kind argsort inv cell a b limit false template n bx is_label file dt _ steps k Ht Hm Hk Hl Hne Hd _ _ Hsim).
  rewrite cut_last_ok by (destruct last; [|exact I]; destruct Hlast as [H1 H2]; split; [exact H1|]; intros F; apply map_eq_nil in F; apply map_eq_nil in F; exact (H2 F)).
  cbn [bind fst snd]. do 3 f_equal.
  - rewrite !map_map. rewrite last_opt_map. reflexivity.
  - rewrite map_map. rewrite last_opt_map. reflexivity.
Qed.
(* ---------- LAMMPS, memory mapped ---------- *)
Lemma takes_memmap {I} (g : I -> R * frame) a z (l : list I) : forall done t extra c, 1 <= a -> c = List.length done + (a - 1) ->
  takes (fun c st x => match update (c - a) (snd (g x)) (snd st) with Some d => Some (fst st ++ [fst (g x)], d) | None => None end) c
        (t, done ++ repeat z (List.length l + extra)) l =
  Some (t ++ map fst (map g l), done ++ map snd (map g l) ++ repeat z extra).
Proof.
  induction l as [|x l IH]; intros done t extra c Ha Hc; cbn [takes map List.length Nat.add]; [rewrite !app_nil_r; reflexivity|].
  cbn [repeat snd fst]. replace (S c - a) with (List.length done) by lia. rewrite update_app.
  replace (done ++ snd (g x) :: repeat z (List.length l + extra)) with ((done ++ [snd (g x)]) ++ repeat z (List.length l + extra)) by (rewrite <- app_assoc; reflexivity).
  rewrite IH; [rewrite <- !app_assoc; reflexivity|exact Ha|rewrite app_length; cbn; lia].
Qed.
Lemma lammps_memmap cell n bx (is_label : L -> Prop) k file dt last a b limit template steps :
  template_ok argsort n template -> k <> Unrecognised -> (forall l, is_label l -> kind l = k) -> lammps_dump has words num int n bx is_label steps file -> steps <> [] ->
  1 <= a -> a <= b -> 
  let w := window a (Some (stop a (Some b) limit)) steps in
  read_lammps has words num int kind argsort inv file cell dt last a (Some b) limit true template =
  Ok (MkLR k (MkContent (map (fun s => fst s * dt)%R w)
                        (map (fun s => map (fun v => vmul v (transformation inv cell (box_lattice bx))) (arrange argsort template (snd s))) w
                         ++ repeat (repeat vzero n) (b + 1 - a - List.length w)))
             (mmul (box_lattice bx) (transformation inv cell (box_lattice bx)))).
Proof.
  intros Ht Hk Hl Hd Hne H1 Hb w. destruct (stop_pos a (Some b) limit) as [S1 S2]; [lia|].
  assert (Lw : List.length w <= b + 1 - a). { unfold w. etransitivity; [apply window_le|]. unfold stop. lia. }
  assert (Hsim : sim lam_skip (lam_take argsort inv cell a true template n bx) a (Some b) limit steps 0 ([], lam_initial a (Some b) true n) =
    Some (map fst (map (lam_item argsort inv cell template n bx) w), map snd (map (lam_item argsort inv cell template n bx) w) ++ repeat (repeat vzero n) (b + 1 - a - List.length w))).
  { rewrite sim_window by assumption. rewrite lam_skip_fold. fold w. unfold lam_take.
    assert (X := takes_memmap (lam_item argsort inv cell template n bx) a (repeat vzero n) w [] [] (b + 1 - a - List.length w) (a - 1) H1 eq_refl). cbn [app] in X.
    unfold lam_initial. replace (b - a + 1) with (List.length w + (b + 1 - a - List.length w)) by lia. exact X. }
  assert (Hm : memmap_ok a (Some b) true) by (intros _; exists b; repeat split; lia).
  rewrite (read_lammps_sim has words num int kind argsort inv cell a (Some b) limit true template n bx is_label file dt last steps k Ht Hm Hk Hl Hne Hd _ _ Hsim).
  cbn [bind fst snd]. do 3 f_equal.
  - rewrite !map_map. reflexivity.
  - rewrite map_map. reflexivity.
Qed.

(* ---------- XDATCAR ---------- *)
Section Xdatcar.
Context (a : nat) (b : option nat) (limit : nat) (memmap : bool) (template : option (list R)) (n : nat).
Notation block := (xdatcar_block has words num (fun l t => after_eq l = Some t) n).
Definition xd_item (x : R * frame) : R * frame := (fst x, arrange argsort template (snd x)).
Definition xd_zero : list frame := match b with Some b => repeat (repeat vzero n) (b - a + 1) | None => [] end.
Definition xd_skip (st : list R * list frame) (x : R * frame) : list R * list frame := (fst st ++ [fst x], if memmap then xd_zero else snd st).
Definition xd_take (c : nat) (st : list R * list frame) (x : R * frame) : option (list R * list frame) :=
  if memmap then match update (c - a) (snd (xd_item x)) xd_zero with Some d => Some (fst st ++ [fst (xd_item x)], d) | None => None end
  else app_take xd_item c st x.
Lemma xdatcar_loop_sim (Ht : template_ok argsort n template) (Hm : memmap_ok a b memmap) steps blocks : Forall2 block steps blocks ->
  forall fuel c junk time data out, List.length steps < fuel -> quiet "Direct configuration" junk ->
  sim xd_skip xd_take a b limit steps c (time, data) = Some out ->
  exists st, xdatcar_loop has words num after_eq argsort n a b limit memmap template fuel (MkX c (junk ++ List.concat blocks) time data) = Ok st /\
    (x_time st, x_data st) = out.
Proof.
  intros H. induction H as [|s blk steps blocks Hs Hsteps IH]; intros fuel c junk time data out Hfuel Hj Hsim; (destruct fuel as [|fuel]; [cbn in Hfuel; lia|]).
  - cbn [List.concat] in *. rewrite app_nil_r. cbn [xdatcar_loop x_pos]. rewrite (find_none has) by exact Hj. eexists. split; [reflexivity|]. cbn in *. congruence.
  - destruct Hs as [h rows t f H1 Hv Hf Hr Q].
    cbn [List.length] in Hfuel. cbn [List.concat]. cbn [xdatcar_loop x_pos x_time x_data x_counter].
    rewrite (find_quiet has) by exact Hj. cbn [app]. rewrite (find_here has) by exact H1. rewrite Hv. cbn [need bind].
    assert (Ez : (if memmap then match b with None | Some O => Exit | Some b => if a <=? b then Ok (repeat (repeat vzero n) (b - a + 1)) else Crash end else Ok data) = Ok (if memmap then xd_zero else data)).
    { unfold xd_zero, memmap_ok in *. destruct memmap; [|reflexivity]. destruct (Hm eq_refl) as (b0 & -> & B1 & B2). destruct b0 as [|b0]; [lia|]. destruct (Nat.leb_spec a (S b0)); [reflexivity|lia]. }
    unfold frame in *. rewrite Ez. cbn [bind].
    cbn [sim] in Hsim. destruct (S c <? a) eqn:Ea.
    + apply IH with (out := out); [lia|exact Q|exact Hsim].
    + destruct (read_rows_ok words num argsort template n rows f (List.concat blocks) Ht Hf Hr) as (rs & Er & Em). rewrite Er, Em.
      destruct (xd_take (S c) (time, data) (t, f)) as [[t' d']|] eqn:Etk; [|discriminate].
      assert (Ed : (if memmap then need (update (S c - a) (arrange argsort template f) (if memmap then xd_zero else data)) else Ok ((if memmap then xd_zero else data) ++ [arrange argsort template f])) = Ok d' /\ t' = time ++ [t]).
      { unfold xd_take, app_take in Etk. change (fst (xd_item (t, f))) with t in Etk. change (snd (time, data)) with data in Etk. change (fst (time, data)) with time in Etk. change (snd (xd_item (t, f))) with (arrange argsort template f) in Etk.
        unfold frame in *. destruct memmap; [destruct (update (S c - a) (arrange argsort template f) xd_zero); [|discriminate]|]; injection Etk as <- <-; split; reflexivity. }
      destruct Ed as [Ed ->]. unfold frame in *. rewrite Ed. cbn [bind].
      destruct (limit + a <? S c); [eexists; split; [reflexivity|]; cbn; congruence|].
      destruct b as [b0|]; [destruct (b0 <=? S c)|].
      * eexists; split; [reflexivity|]; cbn; congruence.
      * apply (IH fuel (S c) []) with (out := out); [lia|exact (List.Forall_nil _)|exact Hsim].
      * apply (IH fuel (S c) []) with (out := out); [lia|exact (List.Forall_nil _)|exact Hsim].
Qed.
End Xdatcar.
Lemma read_xdatcar_sim file cell ns dt last a b limit memmap template steps :
  template_ok argsort (list_sum ns) template -> memmap_ok a b memmap -> xdatcar_file has words num int (fun l t => after_eq l = Some t) cell ns steps file ->
  forall t d, sim (xd_skip a b memmap (list_sum ns)) (xd_take a b memmap template (list_sum ns)) a b limit steps 0 ([], []) = Some (t, d) ->
  read_xdatcar has words num int after_eq argsort file dt last a b limit memmap template =
  bind (if memmap then Ok (map (fun x => x * dt)%R t, d) else cut_last last (map (fun x => x * dt)%R t) d)
       (fun r => Ok (MkContent (fst r) (snd r), cell)).
Proof.
  intros Ht Hm Hf t d Hsim. destruct Hf as [c0 scale la lb lc elements counts blocks Ha Hb Hc Hn HF].
  assert (Hle : List.length steps <= List.length (List.concat blocks)).
  { clear -HF. induction HF as [|s blk steps blocks Hs Hr IH]; [cbn; lia|]. cbn [List.concat]. rewrite app_length. destruct Hs. cbn [List.length]. lia. }
  unfold read_xdatcar. rewrite (fields_ok words num _ _ Ha), (fields_ok words num _ _ Hb), (fields_ok words num _ _ Hc). cbn [vec_of need bind].
  rewrite Hn, all_some_map. cbn [need bind].
  destruct (xdatcar_loop_sim a b limit memmap template (list_sum ns) Ht Hm steps blocks HF (S (List.length (c0 :: scale :: la :: lb :: lc :: elements :: counts :: List.concat blocks))) 0 [] [] [] (t, d)) as (st & Est & Eo); [cbn [List.length]; lia|exact (List.Forall_nil _)|exact Hsim|].
  cbn [app] in Est. unfold frame in *. rewrite Est. cbn [bind]. injection Eo as -> ->.
  assert (Ec : M3 (V3 (vx (r0 cell)) (vy (r0 cell)) (vz (r0 cell))) (V3 (vx (r1 cell)) (vy (r1 cell)) (vz (r1 cell))) (V3 (vx (r2 cell)) (vy (r2 cell)) (vz (r2 cell))) = cell) by (destruct cell as [[] [] []]; reflexivity).
  rewrite Ec. destruct memmap; [reflexivity|]. destruct (cut_last last _ d) as [[t' d']| | |]; reflexivity.
Qed.
Lemma xd_skip_fold a b n l : forall t d, fold_left (xd_skip a b false n) l (t, d) = (t ++ map fst l, d).
Proof. induction l as [|x l IH]; intros t d; cbn [fold_left map]; [rewrite app_nil_r; reflexivity|]. unfold xd_skip at 2. cbn [fst snd]. rewrite IH, <- app_assoc. reflexivity. Qed.
(** in memory: the data are the window; the time stamps are those of ALL steps up to the end of the window *)
Lemma xdatcar_window file cell ns dt last a b limit template steps :
  template_ok argsort (list_sum ns) template -> xdatcar_file has words num int (fun l t => after_eq l = Some t) cell ns steps file ->
  (match b with Some b => a <= b /\ 1 <= b | None => True end) ->
  let w := window a (Some (stop a b limit)) steps in last_ok last w ->
  read_xdatcar has words num int after_eq argsort file dt (option_map Z.of_nat last) a b limit false template =
  Ok (MkContent (last_opt last (map (fun s => fst s * dt)%R (firstn (stop a b limit) steps)))
                (map (fun s => arrange argsort template (snd s)) (last_opt last w)), cell).
Proof.
  intros Ht Hf Hb w Hlast. destruct (stop_pos a b limit Hb) as [S1 S2].
  assert (Hsim : sim (xd_skip a b false (list_sum ns)) (xd_take a b false template (list_sum ns)) a b limit steps 0 ([], []) =
    Some (map fst (firstn (stop a b limit) steps), map snd (map (xd_item template) w))).
  { rewrite sim_window by assumption. rewrite xd_skip_fold. fold w. unfold xd_take.
    assert (X := takes_append (xd_item template) w (a - 1) (map fst (firstn (a - 1) steps)) []). cbn [app] in X |- *.
    etransitivity; [exact X|]. do 2 f_equal. rewrite map_map. cbn [xd_item fst]. change (map (fun x : R * frame => fst x) w) with (map fst w). rewrite <- map_app. f_equal.
    unfold w, window. transitivity (firstn (a - 1) (firstn (stop a b limit) steps) ++ skipn (a - 1) (firstn (stop a b limit) steps)); [|apply firstn_skipn]. f_equal. rewrite firstn_firstn. f_equal. lia. }
  assert (Hm : memmap_ok a b false) by (intros F; discriminate).
  rewrite (read_xdatcar_sim file cell ns dt _ a b limit false template steps Ht Hm Hf _ _ Hsim).
  rewrite cut_last_ok by (destruct last; [|exact I]; destruct Hlast as [H1 H2]; split; [exact H1|]; intros F; apply map_eq_nil in F; apply map_eq_nil in F; exact (H2 F)).
  cbn [bind fst snd]. do 2 f_equal. f_equal.
  - rewrite map_map. reflexivity.
  - rewrite map_map, last_opt_map. reflexivity.
Qed.
(** memory mapped: only the last step read survives *)
Lemma takes_fresh {I} (g : I -> R * frame) a z m (l : list I) x : forall c st, 1 <= a -> a <= S c -> c + List.length l + 1 - a < m ->
  takes (fun c st x => match update (c - a) (snd (g x)) (repeat z m) with Some d => Some (fst st ++ [fst (g x)], d) | None => None end) c st (l ++ [x]) =
  Some (fst st ++ map fst (map g (l ++ [x])), repeat z (c + List.length l + 1 - a) ++ snd (g x) :: repeat z (m - (c + List.length l + 2 - a))).
Proof.
  induction l as [|y l IH]; intros c st Ha Hc Hl.
  - cbn [app takes map List.length]. cbn [List.length] in Hl.
    assert (E : repeat z m = repeat z (S c - a) ++ z :: repeat z (m - (c + 2 - a))). { replace m with ((S c - a) + S (m - (c + 2 - a))) at 1 by lia. rewrite repeat_app. reflexivity. }
    assert (U := update_app (repeat z (S c - a)) (snd (g x)) z (repeat z (m - (c + 2 - a)))). rewrite repeat_length in U. rewrite E, U. rewrite Nat.add_0_r. replace (S c - a) with (c + 1 - a) by lia. reflexivity.
  - cbn [app takes map]. cbn [List.length] in Hl.
    assert (E : repeat z m = repeat z (S c - a) ++ z :: repeat z (m - (c + 2 - a))). { replace m with ((S c - a) + S (m - (c + 2 - a))) at 1 by lia. rewrite repeat_app. reflexivity. }
    assert (U := update_app (repeat z (S c - a)) (snd (g y)) z (repeat z (m - (c + 2 - a)))). rewrite repeat_length in U. rewrite E, U, <- E. rewrite IH; [|lia|lia|lia]. cbn [fst List.length]. rewrite <- app_assoc.
    replace (S c + List.length l + 1 - a) with (c + S (List.length l) + 1 - a) by lia. replace (S c + List.length l + 2 - a) with (c + S (List.length l) + 2 - a) by lia. reflexivity.
Qed.
Lemma xd_skip_fold_m a b n l : forall t d, fold_left (xd_skip a b true n) l (t, d) = (t ++ map fst l, match l with [] => d | _ => xd_zero a b n end).
Proof. induction l as [|x l IH]; intros t d; cbn [fold_left map]; [rewrite app_nil_r; reflexivity|]. unfold xd_skip at 2. cbn [fst snd]. rewrite IH, <- app_assoc. destruct l; reflexivity. Qed.
Lemma xdatcar_memmap file cell ns dt last a b limit template steps w' x :
  template_ok argsort (list_sum ns) template -> xdatcar_file has words num int (fun l t => after_eq l = Some t) cell ns steps file ->
  1 <= a -> a <= b -> window a (Some (stop a (Some b) limit)) steps = w' ++ [x] ->
  read_xdatcar has words num int after_eq argsort file dt last a (Some b) limit true template =
  Ok (MkContent (map (fun s => fst s * dt)%R (firstn (stop a (Some b) limit) steps))
                (repeat (repeat vzero (list_sum ns)) (List.length w') ++ arrange argsort template (snd x) :: repeat (repeat vzero (list_sum ns)) (b - a - List.length w')), cell).
Proof.
  intros Ht Hf H1 Hb Hw. destruct (stop_pos a (Some b) limit) as [S1 S2]; [lia|].
  assert (Lw : List.length w' + 1 <= b + 1 - a). { assert (X := window_le a (stop a (Some b) limit) steps). rewrite Hw, app_length in X. cbn [List.length] in X. unfold stop in X. lia. }
  assert (Hsim : sim (xd_skip a (Some b) true (list_sum ns)) (xd_take a (Some b) true template (list_sum ns)) a (Some b) limit steps 0 ([], []) =
    Some (map fst (firstn (stop a (Some b) limit) steps), repeat (repeat vzero (list_sum ns)) (List.length w') ++ arrange argsort template (snd x) :: repeat (repeat vzero (list_sum ns)) (b - a - List.length w'))).
  { rewrite sim_window by assumption. rewrite xd_skip_fold_m. unfold frame in *. rewrite Hw. unfold xd_take, xd_zero at 1.
    assert (Y1 : a <= S (a - 1)) by lia. assert (Y2 : a - 1 + List.length w' + 1 - a < b - a + 1) by lia.
    assert (X := takes_fresh (xd_item template) a (repeat vzero (list_sum ns)) (b - a + 1) w' x (a - 1) (map fst (firstn (a - 1) steps), match firstn (a - 1) steps with [] => [] | _ => xd_zero a (Some b) (list_sum ns) end) H1 Y1 Y2).
    etransitivity; [exact X|]. cbn [fst]. f_equal. f_equal.
    - rewrite map_map. cbn [xd_item fst]. change (map (fun x0 : R * frame => fst x0) (w' ++ [x])) with (map fst (w' ++ [x])). rewrite <- map_app. f_equal. rewrite <- Hw. unfold window. transitivity (firstn (a - 1) (firstn (stop a (Some b) limit) steps) ++ skipn (a - 1) (firstn (stop a (Some b) limit) steps)); [|apply firstn_skipn]. f_equal. rewrite firstn_firstn. f_equal. lia.
    - cbn [xd_item snd]. change (R * frame)%type with (R * list vec)%type. f_equal; [f_equal; lia|]. f_equal. f_equal. lia. }
  assert (Hm : memmap_ok a (Some b) true) by (intros _; exists b; repeat split; lia).
  rewrite (read_xdatcar_sim file cell ns dt last a (Some b) limit true template steps Ht Hm Hf _ _ Hsim). cbn [bind fst snd]. rewrite map_map. reflexivity.
Qed.

(* ---------- OUTCAR ---------- *)
Section Outcar.
Context (nions : L -> option nat) (potim energy : L -> option R) (a : nat) (b : option nat) (limit : nat) (template : option (list R)) (n : nat).
Notation block := (outcar_block has words num (fun l t => energy l = Some t) n).
Definition oc_item (x : R * frame) : R * frame := (fst x, arrange argsort template (snd x)).
Lemma outcar_skip fuel : forall c s, o_counter s = c -> c + 1 < a ->
  outcar_loop has words num argsort n a b limit template energy (a - 1 - c + fuel) s =
  outcar_loop has words num argsort n a b limit template energy fuel (MkO (a - 1) (o_pos s) (o_data s) (o_energy s)).
Proof.
  intros c. remember (a - 1 - c) as k eqn:Ek. revert c Ek. induction k as [|k IH]; intros c Ek s Hs Hc; [lia|].
  cbn [Nat.add outcar_loop]. rewrite Hs. destruct (Nat.ltb_spec (S c) a) as [_|F]; [|lia].
  destruct (Nat.eq_dec k 0) as [->|Hk].
  - cbn [Nat.add]. replace (S c) with (a - 1) by lia. reflexivity.
  - rewrite (IH (S c)); [reflexivity|lia|reflexivity|lia].
Qed.
Lemma outcar_loop_sim (Ht : template_ok argsort n template) tail_ steps blocks : quiet "POSITION" tail_ -> Forall2 block steps blocks ->
  forall fuel c data en out, a <= S c -> List.length steps < fuel ->
  sim (fun st (_ : R * frame) => st) (app_take oc_item) a b limit steps c (en, data) = Some out ->
  exists st, outcar_loop has words num argsort n a b limit template energy fuel (MkO c (List.concat blocks ++ tail_) data en) = Ok st /\ (o_energy st, o_data st) = out.
Proof.
  intros Htail H. induction H as [|s blk steps blocks Hs Hsteps IH]; intros fuel c data en out Hc Hfuel Hsim; (destruct fuel as [|fuel]; [cbn in Hfuel; lia|]).
  - cbn [List.concat app outcar_loop o_pos o_counter]. destruct (Nat.ltb_spec (S c) a) as [F|_]; [lia|]. rewrite (find_none has) by exact Htail. eexists. split; [reflexivity|]. cbn in *. congruence.
  - destruct Hs as [before h dashes rows between el e f Q1 H1 Hf Hr Q2 H2 He]. cbn [List.length] in Hfuel.
    cbn [outcar_loop o_pos o_counter o_data o_energy]. destruct (Nat.ltb_spec (S c) a) as [F|_]; [lia|].
    assert (Epos : List.concat ((before ++ h :: dashes :: rows ++ between ++ [el]) :: blocks) ++ tail_ = before ++ h :: dashes :: rows ++ between ++ el :: List.concat blocks ++ tail_).
    { cbn [List.concat]. rewrite <- !app_assoc. cbn [app]. rewrite <- !app_assoc. reflexivity. }
    rewrite Epos. rewrite (find_quiet has) by exact Q1. rewrite (find_here has) by exact H1. cbn [skipn].
    destruct (read_rows_ok words num argsort template n rows f (between ++ el :: List.concat blocks ++ tail_) Ht Hf Hr) as (rs & Er & Em).
    rewrite Er, Em. rewrite (find_quiet has) by exact Q2. rewrite (find_here has) by exact H2. cbn [need bind]. rewrite He. cbn [need bind].
    cbn [sim] in Hsim. destruct (Nat.ltb_spec (S c) a) as [F|_]; [lia|]. unfold app_take at 1 in Hsim. unfold app_take at 1 in Hsim. unfold app_take at 1 in Hsim. cbn [fst snd oc_item] in Hsim.
    destruct (limit + a <? S c); [eexists; split; [reflexivity|]; cbn; congruence|].
    destruct b as [b0|]; [destruct (b0 <=? S c)|].
    + eexists; split; [reflexivity|]; cbn; congruence.
    + apply IH with (out := out); [lia|lia|exact Hsim].
    + apply IH with (out := out); [lia|lia|exact Hsim].
Qed.
(** the window options only decide HOW MANY steps are read; they are always the first ones of the file *)
Lemma outcar_window file dt last steps :
  template_ok argsort n template -> outcar_file has words num (fun l k => nions l = Some k) (fun l t => potim l = Some t) (fun l t => energy l = Some t) n dt steps file ->
  (match b with Some b => a <= b /\ 1 <= b | None => True end) ->
  let w := firstn (stop a b limit - (a - 1)) steps in last_ok last w ->
  read_outcar has words num argsort nions potim energy file (option_map Z.of_nat last) a b limit template =
  Ok (MkContent (map (fun i => INR i * (dt * / 1000))%R (seq 0 (List.length (last_opt last w)))) (map (fun s => arrange argsort template (snd s)) (last_opt last w)),
      map fst (last_opt last w)).
Proof.
  intros Ht Hf Hb w Hlast. destruct (stop_pos a b limit Hb) as [S1 S2]. destruct Hf as [p1 p2 p3 tail_ ln lt ll blocks Q1 K1 N1 Q2 K2 N2 Q3 K3 HF Qt].
  set (file := p1 ++ ln :: p2 ++ lt :: p3 ++ ll :: List.concat blocks ++ tail_).
  assert (Hle : List.length steps <= List.length file).
  { unfold file. rewrite !app_length. cbn [List.length]. rewrite !app_length. cbn [List.length]. rewrite app_length. cbn [List.length]. rewrite app_length.
    assert (X : List.length steps <= List.length (List.concat blocks)); [|lia]. clear -HF. induction HF as [|s blk steps blocks Hs Hr IH]; [cbn; lia|]. cbn [List.concat]. rewrite app_length. destruct Hs. rewrite app_length. cbn [List.length]. lia. }
  unfold read_outcar. unfold file at 1. rewrite (find_quiet has) by exact Q1. rewrite (find_here has) by exact K1. cbn [need bind tl]. rewrite N1. cbn [need bind].
  rewrite (find_quiet has) by exact Q2. rewrite (find_here has) by exact K2. cbn [need bind tl]. rewrite N2. cbn [need bind].
  rewrite (find_quiet has) by exact Q3. rewrite (find_here has) by exact K3. cbn [need bind tl].
  assert (Hsim : sim (fun st (_ : R * frame) => st) (app_take oc_item) a b limit steps (a - 1) ([], []) = Some (map fst (map oc_item w), map snd (map oc_item w))).
  { rewrite sim_take by lia. exact (takes_append oc_item w (a - 1) [] []). }
  assert (Eloop : exists st, outcar_loop has words num argsort n a b limit template energy (S (a + List.length file)) (MkO 0 (List.concat blocks ++ tail_) [] []) = Ok st /\ (o_energy st, o_data st) = (map fst (map oc_item w), map snd (map oc_item w))).
  { destruct (Nat.le_gt_cases a 1) as [F|F].
    - apply (outcar_loop_sim Ht tail_ steps blocks Qt HF); unfold frame in *; [lia|lia|]. replace (a - 1) with 0 in Hsim by lia. exact Hsim.
    - replace (S (a + List.length file)) with (a - 1 - 0 + (2 + List.length file)) by lia. rewrite (outcar_skip (2 + List.length file) 0); [|reflexivity|lia]. cbn [o_pos o_data o_energy].
      apply (outcar_loop_sim Ht tail_ steps blocks Qt HF); unfold frame in *; [lia|lia|exact Hsim]. }
  destruct Eloop as (st & Est & Eo). unfold frame in *. rewrite Est. cbn [bind]. injection Eo as -> ->.
  rewrite cut_last_ok by (destruct last; [|exact I]; destruct Hlast as [X1 X2]; split; [exact X1|]; intros F; apply map_eq_nil in F; apply map_eq_nil in F; exact (X2 F)).
  cbn [bind]. rewrite !map_map. cbn [oc_item fst snd]. rewrite <- !last_opt_map. rewrite map_length. reflexivity.
Qed.
End Outcar.
End Readers.
