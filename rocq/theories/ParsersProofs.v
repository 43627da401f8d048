From Verif Require Import ParsersModel ParsersSpec.
From Coq Require Import Permutation.
Open Scope R_scope.
Local Open Scope nat_scope.

(* ---------- the reading loop on the list of steps ---------- *)
Section Sim.
Context {I St : Type} (skip : St -> I -> St) (take : nat -> St -> I -> option St) (a : nat) (b : option nat) (limit : nat).
Fixpoint sim (steps : list I) (c : nat) (st : St) : option St :=
  match steps with
  | [] => Some st
  | x :: r =>
      if S c <? a then sim r (S c) (skip st x)
      else match take (S c) st x with
           | None => None
           | Some st' => if limit + a <? S c then Some st'
                         else match b with
                              | Some b => if b <=? S c then Some st' else sim r (S c) st'
                              | None => sim r (S c) st'
                              end
           end
  end.
Fixpoint takes (c : nat) (st : St) (l : list I) : option St :=
  match l with [] => Some st | x :: r => match take (S c) st x with Some st' => takes (S c) st' r | None => None end end.
Definition stop : nat := match b with Some b => Nat.min b (limit + a + 1) | None => limit + a + 1 end.
Lemma sim_take steps : forall c st, a <= S c -> c < stop -> sim steps c st = takes c st (firstn (stop - c) steps).
Proof.
  induction steps as [|x r IH]; intros c st Ha Hc.
  - rewrite firstn_nil. reflexivity.
  - replace (stop - c) with (S (stop - S c)) by lia. cbn [firstn sim takes].
    destruct (Nat.ltb_spec (S c) a) as [F|_]; [lia|].
    destruct (take (S c) st x) as [st'|]; [|reflexivity].
    assert (E : (if limit + a <? S c then Some st' else match b with Some b => if b <=? S c then Some st' else sim r (S c) st' | None => sim r (S c) st' end) = if S c <? stop then sim r (S c) st' else Some st').
    { unfold stop in *. destruct b as [b0|]; destruct (Nat.ltb_spec (limit + a) (S c)); try destruct (Nat.leb_spec b0 (S c));
        match goal with |- context[if S c <? ?s then _ else _] => destruct (Nat.ltb_spec (S c) s) end; try reflexivity; lia. }
    rewrite E. destruct (Nat.ltb_spec (S c) stop) as [F|F].
    + apply IH; lia.
    + replace (stop - S c) with 0 by lia. reflexivity.
Qed.
Lemma sim_skip steps : forall c st, sim steps c st = if S c <? a then sim (skipn (a - 1 - c) steps) (a - 1) (fold_left skip (firstn (a - 1 - c) steps) st) else sim steps c st.
Proof.
  induction steps as [|x r IH]; intros c st.
  - rewrite firstn_nil, skipn_nil. destruct (S c <? a); reflexivity.
  - destruct (Nat.ltb_spec (S c) a) as [F|F]; [|reflexivity]. cbn [sim].
    destruct (Nat.ltb_spec (S c) a) as [_|F']; [|lia]. replace (a - 1 - c) with (S (a - 1 - S c)) by lia. cbn [skipn firstn fold_left].
    rewrite IH. destruct (Nat.ltb_spec (S (S c)) a) as [G|G]; [reflexivity|].
    replace (a - 1 - S c) with 0 by lia. cbn. replace (a - 1) with (S c) by lia. reflexivity.
Qed.
Lemma sim_window steps st : a <= stop -> 1 <= stop ->
  sim steps 0 st = takes (a - 1) (fold_left skip (firstn (a - 1) steps) st) (window a (Some stop) steps).
Proof.
  intros Ha H1. rewrite sim_skip. unfold window. rewrite skipn_firstn_comm.
  destruct (Nat.ltb_spec 1 a) as [F|F].
  - rewrite Nat.sub_0_r. rewrite sim_take by lia. reflexivity.
  - replace (a - 1) with 0 by lia. cbn [firstn fold_left skipn]. rewrite Nat.sub_0_r.
    rewrite sim_take by lia. rewrite Nat.sub_0_r. reflexivity.
Qed.
End Sim.

Lemma Forall2_length {A B} (P : A -> B -> Prop) l m : Forall2 P l m -> List.length l = List.length m.
Proof. induction 1; cbn; congruence. Qed.
Lemma all_some_map {A} (l : list A) : all_some (map Some l) = Some l.
Proof. induction l as [|x l IH]; [reflexivity|]. cbn. rewrite IH. reflexivity. Qed.
Lemma all_some_ext {A B} (f : A -> option B) (g : A -> B) l : (forall x, In x l -> f x = Some (g x)) -> all_some (map f l) = Some (map g l).
Proof. induction l as [|x l IH]; intros H; [reflexivity|]. cbn. rewrite (H x) by (left; reflexivity). rewrite IH by (intros; apply H; right; assumption). reflexivity. Qed.

(* takes for the append-both readers *)
Section Append.
Context {I : Type} (g : I -> R * frame).
Definition app_take (c : nat) (st : list R * list frame) (x : I) : option (list R * list frame) := Some (fst st ++ [fst (g x)], snd st ++ [snd (g x)]).
Lemma takes_append l : forall c t d, takes app_take c (t, d) l = Some (t ++ map fst (map g l), d ++ map snd (map g l)).
Proof.
  induction l as [|x l IH]; intros c t d; cbn [takes map]; [rewrite !app_nil_r; reflexivity|].
  unfold app_take at 1. cbn [fst snd]. rewrite IH. rewrite <- !app_assoc. reflexivity.
Qed.
End Append.

Section Readers.
Context {L T : Type} (has : string -> L -> bool) (words : L -> list T) (num : T -> option R) (int : T -> option nat)
        (after_eq : L -> option R) (kind : L -> label_kind) (argsort : list R -> list nat) (inv : mat -> mat).
Notation find := (@ParsersModel.find L has). Notation quiet := (@quiet L has).
Lemma find_quiet kw p l : quiet kw p -> find kw (p ++ l) = find kw l.
Proof. intros H. induction H as [|x p Hx Hp IH]; [reflexivity|]. cbn [app ParsersModel.find]. rewrite Hx. exact IH. Qed.
Lemma find_here kw x l : has kw x = true -> find kw (x :: l) = Some (x :: l).
Proof. intros H. cbn. rewrite H. reflexivity. Qed.
Lemma find_none kw p : quiet kw p -> find kw p = None.
Proof. intros H. induction H as [|x p Hx Hp IH]; [reflexivity|]. cbn. rewrite Hx. exact IH. Qed.
Lemma quiet_app kw p q : quiet kw p -> quiet kw q -> quiet kw (p ++ q).
Proof. intros. apply Forall_app. split; assumption. Qed.
Lemma quiet_app_l kw p q : quiet kw (p ++ q) -> quiet kw p.
Proof. intros H. apply Forall_app in H. tauto. Qed.
Lemma quiet_app_r kw p q : quiet kw (p ++ q) -> quiet kw q.
Proof. intros H. apply Forall_app in H. tauto. Qed.

Lemma fields_ok l xs : writes_numbers words num l xs -> fields words num l = Some xs.
Proof. intros H. unfold fields. red in H. rewrite H. apply all_some_map. Qed.
Lemma value_ok l x : writes_numbers words num l [x] -> value words num l = Some x.
Proof. unfold writes_numbers, value. destruct (words l) as [|w [|? ?]]; cbn; intros H; try discriminate. congruence. Qed.
Lemma count_ok l n : writes_count words int l n -> count words int l = Some n.
Proof. intros (w & E & H). unfold count. rewrite E. exact H. Qed.
Lemma row3_ok l v : writes_atom words num l v -> row3 words num l = Some [vx v; vy v; vz v].
Proof. intros H. unfold row3. red in H. rewrite H. reflexivity. Qed.

Notation arrange := (ParsersSpec.arrange argsort). Notation template_ok := (ParsersSpec.template_ok argsort).
Lemma gather_ok {A} (d : A) idx l : List.Forall (fun i => i < List.length l) idx -> gather idx l = Some (map (fun i => nth i l d) idx).
Proof. intros H. unfold gather. apply all_some_ext. intros i Hi. apply nth_error_nth'. revert i Hi. apply Forall_forall. exact H. Qed.
Lemma make_frame_ok template rows f : template_ok (List.length f) template -> Forall2 (writes_atom words num) rows f ->
  make_frame argsort template (map (row3 words num) rows) = GoodFrame (arrange template f).
Proof.
  intros Ht H.
  assert (E1 : all_some (map (row3 words num) rows) = Some (map (fun v => [vx v; vy v; vz v]) f)).
  { clear Ht. induction H as [|l v rows f Hl Hf IH]; [reflexivity|]. cbn [map all_some]. rewrite (row3_ok _ _ Hl), IH. reflexivity. }
  assert (E2 : all_some (map vec_of (map (fun v => [vx v; vy v; vz v]) f)) = Some f).
  { rewrite map_map. rewrite (all_some_ext _ (fun v => v)); [rewrite map_id; reflexivity|]. intros [x y z] _. reflexivity. }
  unfold make_frame. rewrite E1, E2. destruct template as [t|]; [|reflexivity]. rewrite (gather_ok vzero) by exact Ht. reflexivity.
Qed.
Lemma read_rows_ok template n rows f rest : template_ok n template -> List.length f = n -> Forall2 (writes_atom words num) rows f ->
  exists rs, read_rows words num n (rows ++ rest) = (rs, rest) /\ make_frame argsort template rs = GoodFrame (arrange template f).
Proof.
  intros Ht Hn H. assert (Hl : List.length rows = n) by (rewrite (Forall2_length _ _ _ H); exact Hn).
  exists (map (row3 words num) rows). split; [|apply make_frame_ok; [rewrite Hn; exact Ht|exact H]].
  unfold read_rows. rewrite firstn_app, Hl, Nat.sub_diag. cbn [firstn]. rewrite app_nil_r, firstn_all2 by lia.
  rewrite app_length, Hl. replace (n - (n + List.length rest)) with 0 by lia. cbn [repeat]. rewrite app_nil_r.
  rewrite skipn_app, Hl, Nat.sub_diag. cbn [skipn]. rewrite skipn_all2 by lia. reflexivity.
Qed.

(* ---------- LAMMPS ---------- *)
Section Lammps.
Context (cell : mat) (a : nat) (b : option nat) (limit : nat) (memmap : bool) (template : option (list R)).
Context (n : nat) (bx : box) (is_label : L -> Prop).
Notation block := (lammps_block has words num int n bx is_label).
Definition header_of : header :=
  let raw := box_lattice bx in let t := transformation inv cell raw in MkHdr n (mmul raw t) t.
Definition lam_item (x : R * frame) : R * frame := (fst x, map (fun v => vmul v (h_trans header_of)) (arrange template (snd x))).
Definition lam_skip (st : list R * list frame) (x : R * frame) : list R * list frame := ([], snd st).
Definition lam_take (c : nat) (st : list R * list frame) (x : R * frame) : option (list R * list frame) :=
  if memmap then match update (c - a) (snd (lam_item x)) (snd st) with Some d => Some (fst st ++ [fst (lam_item x)], d) | None => None end
  else app_take lam_item c st x.

Lemma fold_min3 p q r : rmin [p; q; r] 0 = min4 0 p q r.
Proof. unfold rmin, min4. cbn [fold_left]. symmetry. apply Rmin_assoc. Qed.
Lemma fold_max3 p q r : rmax [p; q; r] 0 = max4 0 p q r.
Proof. unfold rmax, max4. cbn [fold_left]. symmetry. apply Rmax_assoc. Qed.
Lemma raw_of_lines : raw_supercell (MkBounds (xlo bx + min4 0 (xy bx) (xz bx) (xy bx + xz bx), xhi bx + max4 0 (xy bx) (xz bx) (xy bx + xz bx))%R (ylo bx + Rmin 0 (yz bx), yhi bx + Rmax 0 (yz bx))%R (zlo bx, zhi bx) (xy bx) (xz bx) (yz bx)) = box_lattice bx.
Proof.
  unfold raw_supercell. cbn [b_x b_y b_z b_xy b_xz b_yz fst snd]. rewrite fold_min3, fold_max3. unfold rmin, rmax. cbn [fold_left].
  unfold box_lattice, mT. cbn. f_equal; f_equal; ring.
Qed.
Lemma raw_of_lines_orth : xy bx = 0%R -> xz bx = 0%R -> yz bx = 0%R -> raw_supercell (MkBounds (xlo bx, xhi bx) (ylo bx, yhi bx) (zlo bx, zhi bx) 0 0 0) = box_lattice bx.
Proof.
  intros H1 H2 H3. unfold raw_supercell. cbn [b_x b_y b_z b_xy b_xz b_yz fst snd]. rewrite fold_min3, fold_max3. unfold min4, max4, rmin, rmax. cbn [fold_left].
  rewrite !Rplus_0_r. rewrite !Rmin_left, !Rmax_left by lra. unfold box_lattice, mT. cbn. rewrite H1, H2, H3. f_equal; f_equal; ring.
Qed.

Lemma forall2_inv3 {A B} (P : A -> B -> Prop) x y z u v w : Forall2 P [x; y; z] [u; v; w] -> P x u /\ P y v /\ P z w.
Proof. intros H. inversion H as [|? ? ? ? H1 H2]; subst. inversion H2 as [|? ? ? ? H3 H4]; subst. inversion H4; subst. auto. Qed.
Lemma header_ok s blk rest : block s blk -> exists h4 rows, blk = firstn 8 blk ++ h4 :: rows /\ read_header has words num int inv (blk ++ rest) cell = Some (header_of, h4 :: rows ++ rest).
Proof.
  intros H. destruct H as [h1 v h2 c h3 x y z h4 rows t f H1 Hv H2 Hc H3 Hb H4 Hk Hf Hr Q1 Q2 Q3 Q4].
  exists h4, rows. split; [reflexivity|].
  unfold read_header.
  assert (E1 : find "NUMBER OF ATOMS" (([h1; v; h2; c; h3; x; y; z; h4] ++ rows) ++ rest) = Some (h2 :: c :: h3 :: x :: y :: z :: h4 :: rows ++ rest)).
  { change (([h1; v; h2; c; h3; x; y; z; h4] ++ rows) ++ rest) with ([h1; v] ++ h2 :: c :: h3 :: x :: y :: z :: h4 :: rows ++ rest). rewrite find_quiet by exact Q2. apply find_here, H2. }
  assert (E2 : find "BOX BOUNDS" (([h1; v; h2; c; h3; x; y; z; h4] ++ rows) ++ rest) = Some (h3 :: x :: y :: z :: h4 :: rows ++ rest)).
  { change (([h1; v; h2; c; h3; x; y; z; h4] ++ rows) ++ rest) with ([h1; v; h2; c] ++ h3 :: x :: y :: z :: h4 :: rows ++ rest). rewrite find_quiet by exact Q3. apply find_here, H3. }
  rewrite E1, (count_ok _ _ Hc), E2. destruct Hb as [Hb|(B1 & B2 & B3 & Hb)]; apply forall2_inv3 in Hb; destruct Hb as (X1 & X2 & X3).
  - rewrite (fields_ok _ _ X1), (fields_ok _ _ X2), (fields_ok _ _ X3). rewrite raw_of_lines. reflexivity.
  - rewrite (fields_ok _ _ X1), (fields_ok _ _ X2), (fields_ok _ _ X3). rewrite raw_of_lines_orth by assumption. reflexivity.
Qed.
Lemma lammps_loop_sim (file : list L) (Ht : template_ok n template) steps blocks : Forall2 block steps blocks ->
  forall fuel c junk time data l0 out, List.length steps < fuel -> quiet "TIMESTEP" junk -> is_label l0 ->
  sim lam_skip lam_take a b limit steps c (time, data) = Some out ->
  exists st, lammps_loop has words num int argsort inv file cell a b limit memmap template fuel (MkL c (junk ++ List.concat blocks) time data (Some header_of) (Some l0)) = Ok st /\
    (l_time st, l_data st) = out /\ l_hdr st = Some header_of /\ exists l1, l_label st = Some l1 /\ is_label l1.
Proof.
  intros H. induction H as [|s blk steps blocks Hs Hsteps IH]; intros fuel c junk time data l0 out Hfuel Hj Hl0 Hsim; (destruct fuel as [|fuel]; [cbn in Hfuel; lia|]).
  - cbn [List.concat] in *. rewrite app_nil_r. cbn [lammps_loop l_pos]. rewrite find_none by exact Hj. eexists. split; [reflexivity|]. cbn in *. split; [congruence|]. split; [reflexivity|]. exists l0. split; [reflexivity|exact Hl0].
  - destruct Hs as [h1 v h2 cc h3 x y z h4 rows t f H1 Hv H2 Hc H3 Hb H4 Hk Hf Hr Q1 Q2 Q3 Q4].
    cbn [List.length] in Hfuel. cbn [List.concat]. cbn [lammps_loop l_pos l_time l_data l_hdr l_label l_counter].
    rewrite find_quiet by exact Hj. cbn [app]. rewrite find_here by exact H1. rewrite (value_ok _ _ Hv). cbn [need bind].
    assert (E : find "ITEM: ATOMS" (h2 :: cc :: h3 :: x :: y :: z :: h4 :: rows ++ List.concat blocks) = Some (h4 :: rows ++ List.concat blocks)).
    { change (h2 :: cc :: h3 :: x :: y :: z :: h4 :: rows ++ List.concat blocks) with ([h2; cc; h3; x; y; z] ++ h4 :: rows ++ List.concat blocks). rewrite find_quiet; [apply find_here, H4|]. apply (quiet_app_r _ [h1; v]). exact Q4. }
    rewrite E. cbn [need bind].
    assert (Qr : quiet "TIMESTEP" rows) by exact (quiet_app_r _ _ _ Q1).
    cbn [sim] in Hsim. destruct (S c <? a) eqn:Ea.
    + apply IH with (out := out); [lia|exact Qr|exact Hk|exact Hsim].
    + destruct (read_rows_ok template n rows f (List.concat blocks) Ht Hf Hr) as (rs & Er & Em). cbn [h_natoms header_of]. rewrite Er, Em.
      match goal with |- context[map ?F (arrange template f)] => change (map F (arrange template f)) with (snd (lam_item (t, f))) end.
      destruct (lam_take (S c) (time, data) (t, f)) as [[t' d']|] eqn:Etk; [|discriminate].
      assert (Ed : (if memmap then need (update (S c - a) (snd (lam_item (t, f))) data) else Ok (data ++ [snd (lam_item (t, f))])) = Ok d' /\ t' = time ++ [t]).
      { unfold lam_take, app_take in Etk. change (fst (lam_item (t, f))) with t in Etk. change (snd (time, data)) with data in Etk. change (fst (time, data)) with time in Etk.
        destruct memmap; [destruct (update (S c - a) (snd (lam_item (t, f))) data); [|discriminate]|]; injection Etk as <- <-; split; reflexivity. }
      destruct Ed as [Ed ->]. change (@update (list vec)) with (@update frame) in *. change (list (list vec)) with (list frame) in *. unfold frame in *. rewrite Ed. cbn [bind].
      destruct (limit + a <? S c); [eexists; split; [reflexivity|]; cbn; split; [congruence|split; [reflexivity|exists h4; split; [reflexivity|exact Hk]]]|].
      destruct b as [b0|]; [destruct (b0 <=? S c)|].
      * eexists; split; [reflexivity|]; cbn; split; [congruence|split; [reflexivity|exists h4; split; [reflexivity|exact Hk]]].
      * apply (IH fuel (S c) []) with (out := out); [lia|exact (List.Forall_nil _)|exact Hk|exact Hsim].
      * apply (IH fuel (S c) []) with (out := out); [lia|exact (List.Forall_nil _)|exact Hk|exact Hsim].
Qed.
Definition lam_initial : list frame := if memmap then match b with Some b => repeat (repeat vzero n) (b - a + 1) | None => [] end else [].
Definition memmap_ok : Prop := memmap = true -> exists b0, b = Some b0 /\ 1 <= b0 /\ a <= b0.
Lemma lammps_first file s blk steps blocks fuel l0 : memmap_ok -> block s blk -> file = blk ++ List.concat blocks -> Forall2 block steps blocks ->
  lammps_loop has words num int argsort inv file cell a b limit memmap template (S fuel) (MkL 0 file [] [] None None) =
  lammps_loop has words num int argsort inv file cell a b limit memmap template (S fuel) (MkL 0 file [] lam_initial (Some header_of) (Some l0)).
Proof.
  intros Hm Hs Hfile _. destruct (header_ok s blk (List.concat blocks) Hs) as (h4 & rows & Eb & Eh). rewrite <- Hfile in Eh. cbn [lammps_loop l_pos l_time l_data l_hdr l_label l_counter].
  destruct Hs as [h1 v h2 cc h3 x y z h4' rows' t f H1 Hv H2 Hc H3 Hb H4 Hk Hf Hr Q1 Q2 Q3 Q4].
  cbn [firstn app] in Eb. injection Eb as <- <-.
  assert (Ef : find "TIMESTEP" file = Some (h1 :: v :: h2 :: cc :: h3 :: x :: y :: z :: h4' :: rows' ++ List.concat blocks)) by (rewrite Hfile; apply find_here, H1). rewrite Ef.
  rewrite (value_ok _ _ Hv). cbn [need bind]. rewrite Eh. cbn [need bind].
  assert (E : find "ITEM: ATOMS" (h2 :: cc :: h3 :: x :: y :: z :: h4' :: rows' ++ List.concat blocks) = Some (h4' :: rows' ++ List.concat blocks)).
  { change (h2 :: cc :: h3 :: x :: y :: z :: h4' :: rows' ++ List.concat blocks) with ([h2; cc; h3; x; y; z] ++ h4' :: rows' ++ List.concat blocks). rewrite find_quiet; [apply find_here, H4|]. apply (quiet_app_r _ [h1; v]). exact Q4. }
  rewrite E. assert (E' : find "ITEM: ATOMS" (h4' :: rows' ++ List.concat blocks) = Some (h4' :: rows' ++ List.concat blocks)) by apply find_here, H4.
  unfold lam_initial, memmap_ok in *. destruct memmap.
  - destruct (Hm eq_refl) as (b0 & Eb0 & B1 & B2). rewrite Eb0. destruct b0 as [|b0]; [lia|]. destruct (Nat.leb_spec a (S b0)) as [_|F]; [|lia]. cbn [need bind]. rewrite E'. reflexivity.
  - cbn [need bind]. rewrite E'. reflexivity.
Qed.
Lemma read_lammps_sim file time_step last steps (k : label_kind) : template_ok n template -> memmap_ok -> k <> Unrecognised -> (forall l, is_label l -> kind l = k) ->
  steps <> [] -> lammps_dump has words num int n bx is_label steps file ->
  forall t d, sim lam_skip lam_take a b limit steps 0 ([], lam_initial) = Some (t, d) ->
  read_lammps has words num int kind argsort inv file cell time_step last a b limit memmap template =
  bind (if memmap then Ok (map (fun x => x * time_step)%R t, d) else cut_last last (map (fun x => x * time_step)%R t) d)
       (fun r => Ok (MkLR k (MkContent (fst r) (snd r)) (h_supercell header_of))).
Proof.
  intros Ht Hm Hk Hl Hne (blocks & HF & Hfile) t d Hsim.
  assert (Hle : List.length steps <= List.length file).
  { rewrite Hfile. clear -HF. induction HF as [|s blk steps blocks Hs Hr IH]; [cbn; lia|]. cbn [List.concat]. rewrite app_length. destruct Hs. rewrite app_length. cbn [List.length]. lia. }
  destruct HF as [|s blk steps' blocks' Hs Hr]; [congruence|].
  assert (Hl0 : exists l0, is_label l0) by (destruct Hs; eauto). destruct Hl0 as [l0 Hl0].
  unfold read_lammps. rewrite (lammps_first file s blk steps' blocks' _ l0 Hm Hs Hfile Hr).
  assert (HF : Forall2 block (s :: steps') (blk :: blocks')) by (constructor; assumption).
  destruct (lammps_loop_sim file Ht _ _ HF (S (List.length file)) 0 [] [] lam_initial l0 (t, d)) as (st & Est & Eo & Eh & l1 & El & Hl1); [lia|constructor|exact Hl0|exact Hsim|].
  cbn [app] in Est. rewrite <- Hfile in Est. rewrite Est. cbn [bind]. injection Eo as -> ->. rewrite Eh, El, (Hl _ Hl1).
  destruct memmap; [cbn; destruct k; congruence|]. destruct (cut_last last _ d) as [[t' d']| | |]; cbn; try reflexivity. destruct k; congruence.
Qed.
End Lammps.
End Readers.
