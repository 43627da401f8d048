(** C130 (continued): a trajectory file cut inside a line.  The last line [l'] is what is left of a coordinate line. *)
From Verif Require Import ParsersModel ParsersSpec ParsersProofs ParsersMore ParsersProps CutFileProps.
From Coq Require Import Lia.
Open Scope string_scope.
Open Scope list_scope.
Open Scope nat_scope.

Section Statements.
Context {L T : Type} (has : string -> L -> bool) (words : L -> list T) (num : T -> option R) (int : T -> option nat)
        (after_eq : L -> option R) (kind : L -> label_kind) (argsort : list R -> list nat) (inv : mat -> mat).

Lemma vec_none (f : list vec) r rest : vec_of r = None -> all_some (map vec_of (map (fun v => [vx v; vy v; vz v]) f ++ r :: rest)) = None.
Proof. intros H. induction f as [|v f IH]; cbn [map app all_some vec_of]; [rewrite H; reflexivity|rewrite IH; reflexivity]. Qed.
Lemma vec_none_later (f : list vec) r k : all_some (map vec_of (map (fun v => [vx v; vy v; vz v]) f ++ r :: repeat [] (S k))) = None.
Proof.
  induction f as [|v f IH]; cbn [map app all_some vec_of]; [|rewrite IH; reflexivity]. destruct (vec_of r); [|reflexivity]. cbn [repeat map all_some vec_of]. reflexivity.
Qed.
Lemma cut_row template n rows1 f1 l' : Forall2 (writes_atom words num) rows1 f1 -> S (List.length rows1) <= n -> (S (List.length rows1) < n \/ ~ exists v, writes_atom words num l' v) ->
  let rs := map (row3 words num) (rows1 ++ [l']) ++ repeat (Some []) (n - S (List.length rows1)) in
  read_rows words num n (rows1 ++ [l']) = (rs, []) /\ (make_frame argsort template rs = BadFrame \/ make_frame argsort template rs = ShortFrame) /\
  (words l' <> [] -> 2 <= n -> make_frame argsort template rs = BadFrame).
Proof.
  intros H Hn Hl rs. split.
  { unfold read_rows, rs. rewrite firstn_all2, skipn_all2 by (rewrite app_length; cbn; lia). rewrite app_length. cbn [List.length]. rewrite Nat.add_1_r. reflexivity. }
  unfold make_frame, rs. rewrite map_app, (rows_of_atoms _ _ _ _ H), <- app_assoc. cbn [map app].
  replace (map (fun v => Some [vx v; vy v; vz v]) f1) with (map Some (map (fun v => [vx v; vy v; vz v]) f1)) by (rewrite map_map; reflexivity).
  rewrite all_some_app, all_some_map. cbn [all_some]. destruct (row3 words num l') as [r|] eqn:Er; [|auto].
  rewrite all_some_repeat. remember (n - S (List.length rows1)) as k eqn:Dk.
  assert (N : all_some (map vec_of (map (fun v => [vx v; vy v; vz v]) f1 ++ r :: repeat [] k)) = None).
  { destruct k as [|k]; [|apply vec_none_later]. destruct Hl as [Hl|Hl]; [lia|]. apply vec_none. destruct r as [|x [|y [|z [|]]]]; try reflexivity. exfalso. apply Hl. exists (V3 x y z).
    unfold writes_atom. cbn [vx vy vz]. unfold row3 in Er. clear -Er. revert Er. generalize (map num (firstn 3 (words l'))). intros l E. destruct l as [|[a|] [|[b|] [|[c|] [|[d|] l]]]]; cbn in E; try discriminate; try congruence.
    destruct (all_some l); discriminate. }
  rewrite N. split; [destruct (forallb _ _); auto|]. intros Hw H2. match goal with |- (if ?x then _ else _) = _ => assert (E : x = false); [|rewrite E; reflexivity] end.
  rewrite <- not_true_iff_false. intros E. rewrite forallb_forall in E.
  assert (Lr : List.length r <> 0).
  { unfold row3 in Er. destruct (words l') as [|w ws]; [congruence|]. cbn [firstn map all_some] in Er. destruct (num w); [|discriminate]. destruct (all_some _); [|discriminate]. injection Er as <-. discriminate. }
  destruct H as [|l v rows1 f1 H0 H].
  - cbn [List.length] in Dk. assert (Ek : k = S (n - 2)) by lia. specialize (E []). cbn [map app hd] in E. rewrite Ek in E. cbn [repeat] in E. specialize (E (or_intror (or_introl eq_refl))).
    apply Nat.eqb_eq in E. cbn [List.length] in E. congruence.
  - cbn [map app hd] in E. destruct k as [|k'].
    + assert (E3 : List.length r = 3). { specialize (E r ltac:(right; apply in_or_app; right; left; reflexivity)). apply Nat.eqb_eq in E. exact E. }
      assert (X := vec_none f1). clear E Er. destruct r as [|x [|y [|z [|]]]]; try discriminate. clear -N.
      cbn [map app all_some vec_of] in N. assert (G : forall f1 : list vec, all_some (map vec_of (map (fun v => [vx v; vy v; vz v]) f1 ++ [[x; y; z]])) <> None).
      { clear. induction f1 as [|u f1 IH]; [discriminate|]. cbn [map app all_some vec_of]. destruct (all_some _); [discriminate|congruence]. }
      specialize (G f1). cbn [repeat] in N. destruct (all_some (map vec_of (map (fun v0 => [vx v0; vy v0; vz v0]) f1 ++ [[x; y; z]]))); [discriminate|congruence].
    + specialize (E [] ltac:(right; apply in_or_app; right; right; left; reflexivity)). discriminate E.
Qed.

Notation dump_block n b k := (lammps_block has words num int n b (fun l => kind l = k)).
Notation lammps := (read_lammps has words num int kind argsort inv).
Notation stamp := (fun l t => after_eq l = Some t).

(** LAMMPS: a coordinate line of which a part is left, in a step of two or more atoms: refused, unless it is the last line of the step and three numbers can be read from what is left *)
Theorem C130_lammps_line_partial : forall cell n b k dt last a limit template steps blocks head rows1 l rows2 t f l',
  template_ok argsort n template -> a <= 1 -> 2 <= n -> steps <> [] -> List.length steps <= limit + a ->
  Forall2 (dump_block n b k) steps blocks -> dump_block n b k (t, f) (head ++ rows1 ++ l :: rows2) -> List.length head = 9 ->
  words l' <> [] -> (rows2 <> [] \/ ~ exists v, writes_atom words num l' v) ->
  lammps (List.concat blocks ++ head ++ rows1 ++ [l']) cell dt last a None limit false template = Crash.
Proof.
  intros cell n b k dt last a limit template steps blocks head rows1 l rows2 t f l' Ht Ha Hn Hne Hl HF Hs Hh Hw Hc.
  destruct HF as [|s1 blk1 steps blocks Hs1 HF]; [congruence|].
  assert (Hl0 : exists l0, kind l0 = k) by (destruct Hs1; eauto). destruct Hl0 as [l0 Hl0].
  assert (HF' : Forall2 (dump_block n b k) (s1 :: steps) (blk1 :: blocks)) by (constructor; assumption).
  set (cut := head ++ rows1 ++ [l']). set (file := List.concat (blk1 :: blocks) ++ cut).
  assert (Ef : file = blk1 ++ (List.concat blocks ++ cut)) by (unfold file; cbn [List.concat]; rewrite <- app_assoc; reflexivity).
  assert (Hle : List.length (s1 :: steps) < List.length file).
  { unfold file. rewrite app_length. assert (List.length cut <> 0) by (unfold cut; rewrite app_length; lia).
    assert (X : List.length (s1 :: steps) <= List.length (List.concat (blk1 :: blocks))); [|lia]. clear -HF'. induction HF' as [|s2 blk2 steps2 blocks2 Hs Hr IH]; [cbn; lia|]. cbn [List.concat]. rewrite app_length. destruct Hs. rewrite app_length. cbn [List.length]. lia. }
  unfold read_lammps. rewrite Ef, (lammps_first_cut has words num int kind argsort inv cell a limit template n b k s1 blk1 _ _ l0 Hs1), <- Ef.
  assert (Fu : exists fu, S (List.length file) = List.length (s1 :: steps) + S fu) by (exists (List.length file - List.length (s1 :: steps)); lia). destruct Fu as [fu Efu]. rewrite Efu.
  destruct (lammps_runs has words num int kind argsort inv cell a limit template n b k file cut Ht _ _ HF' (S fu) 0 [] [] [] l0 ltac:(lia) ltac:(lia) ltac:(constructor) Hl0) as (junk & l1 & J & K1 & E). cbn [app] in E. fold file in E. rewrite E. clear E.
  inversion Hs as [h1 v h2 cc h3 x y z h4 rows t' f' H1 Hv H2 Hcc H3 Hbb H4 Hk Hf Hr Q1 Q2 Q3 Q4 Et Eb]. subst t' f'.
  destruct head as [|g1 [|g2 [|g3 [|g4 [|g5 [|g6 [|g7 [|g8 [|g9 [|]]]]]]]]]]; try discriminate. cbn [app] in Eb. injection Eb as <- <- <- <- <- <- <- <- <- Eb. subst rows.
  apply Forall2_app_inv_l in Hr. destruct Hr as (f1 & f2 & R1 & R2 & ->). destruct f2 as [|v2 f3]; [inversion R2|]. assert (R3 : Forall2 (writes_atom words num) rows2 f3) by (inversion R2; assumption).
  assert (Len : S (List.length rows1 + List.length rows2) = n) by (rewrite <- Hf, app_length, (Forall2_length _ _ _ R1), (Forall2_length _ _ _ R3); cbn; lia).
  unfold cut. cbn [app]. cbn [lammps_loop l_pos l_time l_data l_hdr l_label l_counter]. rewrite (find_quiet has) by exact J. rewrite (find_here has) by exact H1.
  rewrite (value_ok words num _ _ Hv). cbn [need bind].
  match goal with |- context [ParsersModel.find has "ITEM: ATOMS" ?l] => assert (EA : ParsersModel.find has "ITEM: ATOMS" l = Some (h4 :: rows1 ++ [l'])) end.
  { change (h2 :: cc :: h3 :: x :: y :: z :: h4 :: rows1 ++ [l']) with ([h2; cc; h3; x; y; z] ++ h4 :: rows1 ++ [l']). rewrite (find_quiet has); [apply (find_here has), H4|]. apply (quiet_app_r has _ [h1; v]). exact Q4. }
  rewrite EA. cbn [need bind]. match goal with |- context [Nat.ltb ?i a] => destruct (Nat.ltb_spec i a) as [F'|_]; [lia|] end. cbn [h_natoms header_of].
  destruct (cut_row template (S (List.length rows1 + List.length rows2)) rows1 f1 l' R1 ltac:(lia)) as (C1 & _ & C3).
  { destruct Hc as [Hc|Hc]; [left; destruct rows2; [congruence|cbn; lia]|right; exact Hc]. }
  rewrite Len in C1, C3. rewrite C1, (C3 Hw Hn). reflexivity.
Qed.
(** ... in that case it is read as a complete step: a number that lost its last digits is a number *)
Theorem C130_lammps_line_refuted : forall cell n b k dt a limit template steps blocks head rows1 l t f v l' v',
  template_ok argsort n template -> a <= 1 -> List.length steps < limit -> k <> Unrecognised ->
  Forall2 (dump_block n b k) steps blocks -> dump_block n b k (t, f ++ [v]) (head ++ rows1 ++ [l]) -> List.length head = 9 ->
  writes_atom words num l' v' -> has "TIMESTEP" l' = false ->
  exists r, lammps (List.concat blocks ++ head ++ rows1 ++ [l']) cell dt None a None limit false template = Ok r /\
  c_time (lr_content r) = map (fun s => fst s * dt)%R (steps ++ [(t, f ++ [v])]) /\
  c_data (lr_content r) = map (fun g => map (fun u => vmul u (transformation inv cell (box_lattice b))) (arrange argsort template g)) (map snd steps ++ [f ++ [v']]).
Proof.
  intros cell n b k dt a limit template steps blocks head rows1 l t f v l' v' Ht Ha Hl Hk HF Hs Hh Hw Hq.
  assert (Hs' : dump_block n b k (t, f ++ [v']) (head ++ rows1 ++ [l'])).
  { inversion Hs as [h1 v0 h2 cc h3 x y z h4 rows t' f' H1 Hv H2 Hcc H3 Hbb H4 Hkk Hf Hr Q1 Q2 Q3 Q4 Et Eb]. subst t' f'.
    destruct head as [|g1 [|g2 [|g3 [|g4 [|g5 [|g6 [|g7 [|g8 [|g9 [|]]]]]]]]]]; try discriminate. cbn [app] in Eb. injection Eb as <- <- <- <- <- <- <- <- <- Eb. subst rows.
    change (([h1; v0; h2; cc; h3; x; y; z; h4] ++ rows1 ++ [l'])) with (([h1; v0; h2; cc; h3; x; y; z; h4] ++ (rows1 ++ [l']))).
    constructor; try assumption.
    - rewrite app_length in Hf |- *. exact Hf.
    - apply Forall2_app_inv_l in Hr. destruct Hr as (f1 & f2 & R1 & R2 & Ef). inversion R2 as [|? v2 ? f3 R4 R3]; subst. inversion R3; subst. apply app_inj_tail in Ef as [<- <-]. apply Forall2_app; [exact R1|constructor; [exact Hw|constructor]].
    - unfold quiet in *. apply Forall_app in Q1 as [Q1 Q5]. apply Forall_app. split; [exact Q1|]. apply Forall_app in Q5 as [Q5 _]. apply Forall_app. split; [exact Q5|]. constructor; [exact Hq|constructor]. }
  assert (D : lammps_dump has words num int n b (fun l => kind l = k) (steps ++ [(t, f ++ [v'])]) (List.concat blocks ++ head ++ rows1 ++ [l'])).
  { exists (blocks ++ [head ++ rows1 ++ [l']]). split; [apply Forall2_app; [exact HF|constructor; [exact Hs'|constructor]]|]. rewrite concat_app. cbn [List.concat]. rewrite app_nil_r. reflexivity. }
  assert (W : window a None (steps ++ [(t, f ++ [v'])]) = steps ++ [(t, f ++ [v'])]) by (unfold window; replace (a - 1) with 0 by lia; reflexivity).
  assert (X := lammps_range has words num int kind argsort inv cell n b k _ dt None a None limit template _ Ht Hk D). cbv zeta in X. rewrite W in X. cbn [option_map last_opt] in X.
  eexists. split; [apply X|].
  - destruct steps; discriminate.
  - exact I.
  - rewrite app_length. cbn. lia.
  - exact I.
  - cbn [lr_content c_time c_data]. split; [rewrite !map_app; reflexivity|]. rewrite !map_app, map_map. reflexivity.
Qed.

(** XDATCAR: the same for any number of atoms *)
Theorem C130_xdatcar_line_partial : forall cell ns dt last a limit template c0 scale la lb lc elements counts steps blocks h rows1 l rows2 t f l',
  xdatcar_file has words num int stamp cell ns steps (c0 :: scale :: la :: lb :: lc :: elements :: counts :: List.concat blocks) ->
  Forall2 (xdatcar_block has words num stamp (list_sum ns)) steps blocks ->
  xdatcar_block has words num stamp (list_sum ns) (t, f) (h :: rows1 ++ l :: rows2) -> (rows2 <> [] \/ ~ exists v, writes_atom words num l' v) ->
  template_ok argsort (list_sum ns) template -> a <= 1 -> List.length steps <= limit + a ->
  read_xdatcar has words num int after_eq argsort (c0 :: scale :: la :: lb :: lc :: elements :: counts :: List.concat blocks ++ h :: rows1 ++ [l']) dt last a None limit false template = Crash.
Proof.
  intros cell ns dt last a limit template c0 scale la lb lc elements counts steps blocks h rows1 l rows2 t f l' Hx HF Hs Hc Ht Ha Hl.
  assert (W : writes_numbers words num la [vx (r0 cell); vy (r0 cell); vz (r0 cell)] /\ writes_numbers words num lb [vx (r1 cell); vy (r1 cell); vz (r1 cell)] /\
    writes_numbers words num lc [vx (r2 cell); vy (r2 cell); vz (r2 cell)] /\ map int (words counts) = map Some ns) by (inversion Hx; subst; repeat split; assumption).
  destruct W as (W1 & W2 & W3 & W4).
  unfold read_xdatcar. rewrite (fields_ok words num _ _ W1), (fields_ok words num _ _ W2), (fields_ok words num _ _ W3). cbn [vec_of need bind]. rewrite W4, all_some_map. cbn [need bind].
  set (cut := h :: rows1 ++ [l']).
  assert (Hle : List.length steps <= List.length (List.concat blocks ++ cut)).
  { rewrite app_length. clear -HF. induction HF as [|s blk steps blocks Hs Hr IH]; [cbn; lia|]. cbn [List.concat List.length]. rewrite app_length. destruct Hs. cbn [List.length]. lia. }
  set (fu := S (List.length (c0 :: scale :: la :: lb :: lc :: elements :: counts :: List.concat blocks ++ cut))).
  assert (Fu : exists f0, fu = List.length steps + S f0) by (exists (fu - List.length steps - 1); unfold fu; cbn [List.length]; lia). destruct Fu as [f0 ->].
  destruct (xdatcar_runs has words num after_eq argsort a limit template (list_sum ns) cut Ht steps blocks HF (S f0) 0 [] [] [] ltac:(lia) ltac:(lia) ltac:(constructor)) as (junk & t' & d' & J & E). cbn [app] in E. rewrite E. clear E.
  inversion Hs as [h' rows t2 f2' H1 Hv Hf Hr Q X1 X2]. subst h' rows t2 f2'. apply Forall2_app_inv_l in Hr. destruct Hr as (f1 & f2 & R1 & R2 & ->). destruct f2 as [|v2 f3]; [inversion R2|]. assert (R3 : Forall2 (writes_atom words num) rows2 f3) by (inversion R2; assumption).
  assert (Len : S (List.length rows1 + List.length rows2) = list_sum ns) by (rewrite <- Hf, app_length, (Forall2_length _ _ _ R1), (Forall2_length _ _ _ R3); cbn; lia).
  unfold cut. cbn [xdatcar_loop x_pos x_time x_data x_counter]. rewrite (find_quiet has) by exact J. rewrite (find_here has) by exact H1. rewrite Hv. cbn [need bind].
  match goal with |- context [Nat.ltb ?i a] => destruct (Nat.ltb_spec i a) as [F'|_]; [lia|] end.
  destruct (cut_row template (S (List.length rows1 + List.length rows2)) rows1 f1 l' R1 ltac:(lia)) as (C1 & C2 & _).
  { destruct Hc as [Hc|Hc]; [left; destruct rows2; [congruence|cbn; lia]|right; exact Hc]. }
  rewrite Len in C1, C2. rewrite C1. destruct C2 as [-> | ->]; reflexivity.
Qed.
Theorem C130_xdatcar_line_refuted : forall cell ns dt a limit template c0 scale la lb lc elements counts steps blocks h rows1 l t f v l' v',
  xdatcar_file has words num int stamp cell ns steps (c0 :: scale :: la :: lb :: lc :: elements :: counts :: List.concat blocks) ->
  Forall2 (xdatcar_block has words num stamp (list_sum ns)) steps blocks ->
  xdatcar_block has words num stamp (list_sum ns) (t, f ++ [v]) (h :: rows1 ++ [l]) -> writes_atom words num l' v' -> has "Direct configuration" l' = false ->
  template_ok argsort (list_sum ns) template -> a <= 1 -> List.length steps < limit ->
  exists c, read_xdatcar has words num int after_eq argsort (c0 :: scale :: la :: lb :: lc :: elements :: counts :: List.concat blocks ++ h :: rows1 ++ [l']) dt None a None limit false template = Ok (c, cell) /\
  c_time c = map (fun s => fst s * dt)%R (steps ++ [(t, f ++ [v])]) /\ c_data c = map (arrange argsort template) (map snd steps ++ [f ++ [v']]).
Proof.
  intros cell ns dt a limit template c0 scale la lb lc elements counts steps blocks h rows1 l t f v l' v' Hx HF Hs Hw Hq Ht Ha Hl.
  assert (Hs' : xdatcar_block has words num stamp (list_sum ns) (t, f ++ [v']) (h :: rows1 ++ [l'])).
  { inversion Hs as [h' rows t2 f2' H1 Hv Hf Hr Q]. subst. constructor; try assumption.
    - rewrite app_length in Hf |- *. exact Hf.
    - apply Forall2_app_inv_l in Hr. destruct Hr as (f1 & f2 & R1 & R2 & Ef). inversion R2 as [|? v2 ? f3 R4 R3]; subst. inversion R3; subst. apply app_inj_tail in Ef as [<- <-]. apply Forall2_app; [exact R1|constructor; [exact Hw|constructor]].
    - unfold quiet in *. apply Forall_app in Q as [Q _]. apply Forall_app. split; [exact Q|]. constructor; [exact Hq|constructor]. }
  assert (D : xdatcar_file has words num int stamp cell ns (steps ++ [(t, f ++ [v'])]) (c0 :: scale :: la :: lb :: lc :: elements :: counts :: List.concat blocks ++ h :: rows1 ++ [l'])).
  { replace (List.concat blocks ++ h :: rows1 ++ [l']) with (List.concat (blocks ++ [h :: rows1 ++ [l']])) by (rewrite concat_app; cbn [List.concat]; rewrite app_nil_r; reflexivity).
    inversion Hx; subst. constructor; try assumption. apply Forall2_app; [exact HF|constructor; [exact Hs'|constructor]]. }
  assert (W : window a None (steps ++ [(t, f ++ [v'])]) = steps ++ [(t, f ++ [v'])]) by (unfold window; replace (a - 1) with 0 by lia; reflexivity).
  assert (X := xdatcar_range has words num int after_eq argsort _ cell ns dt None a None limit template _ Ht D). cbv zeta in X. rewrite W in X. cbn [option_map last_opt] in X.
  eexists. split; [apply X|].
  - exact I.
  - rewrite app_length. cbn. lia.
  - exact I.
  - cbn [c_time c_data]. split; [rewrite !map_app; reflexivity|]. rewrite !map_app, map_map. reflexivity.
Qed.
(** OUTCAR cut inside a coordinate line: refused (the energy of the step is missing in any case) *)
Lemma outcar_last_step nions potim energy n dt last a limit template p1 p2 p3 ln lt ll steps blocks rest :
  quiet has "NIONS =" p1 -> has "NIONS =" ln = true -> nions ln = Some n -> quiet has "POTIM  =" p2 -> has "POTIM  =" lt = true -> potim lt = Some dt ->
  quiet has "direct lattice vectors" p3 -> has "direct lattice vectors" ll = true ->
  Forall2 (outcar_block has words num (fun l t => energy l = Some t) n) steps blocks -> template_ok argsort n template -> a <= 1 -> List.length steps <= limit + a ->
  (forall fu c data en, a <= S c -> outcar_loop has words num argsort n a None limit template energy (S fu) (MkO c rest data en) = Crash) ->
  read_outcar has words num argsort nions potim energy (p1 ++ ln :: p2 ++ lt :: p3 ++ ll :: List.concat blocks ++ rest) last a None limit template = Crash.
Proof.
  intros Q1 K1 N1 Q2 K2 N2 Q3 K3 HF Ht Ha Hl St.
  unfold read_outcar. rewrite (find_quiet has) by exact Q1. rewrite (find_here has) by exact K1. cbn [need bind tl]. rewrite N1. cbn [need bind].
  rewrite (find_quiet has) by exact Q2. rewrite (find_here has) by exact K2. cbn [need bind tl]. rewrite N2. cbn [need bind].
  rewrite (find_quiet has) by exact Q3. rewrite (find_here has) by exact K3. cbn [need bind tl].
  match goal with |- context [outcar_loop _ _ _ _ _ _ _ _ _ _ ?x _] => set (fu := x) end.
  assert (Hle : List.length steps + 1 <= fu).
  { unfold fu. rewrite !app_length. cbn [List.length]. rewrite !app_length. cbn [List.length]. rewrite !app_length. cbn [List.length]. rewrite !app_length.
    assert (X : List.length steps <= List.length (List.concat blocks)); [|lia]. clear -HF. induction HF as [|s blk steps blocks Hs Hr IH]; [cbn; lia|]. cbn [List.concat]. rewrite app_length. destruct Hs. rewrite app_length. cbn [List.length]. lia. }
  assert (Fu : exists f0, fu = List.length steps + S f0) by (exists (fu - List.length steps - 1); lia). destruct Fu as [f0 ->].
  rewrite (outcar_runs has words num argsort energy a limit template n _ Ht steps blocks HF (S f0) 0 [] []) by lia. rewrite St by lia. reflexivity.
Qed.
Theorem C130_outcar_line : forall nions potim energy n dt last a limit template p1 p2 p3 ln lt ll steps blocks before h dashes rows1 l rows2 between el f l',
  quiet has "NIONS =" p1 -> has "NIONS =" ln = true -> nions ln = Some n -> quiet has "POTIM  =" p2 -> has "POTIM  =" lt = true -> potim lt = Some dt ->
  quiet has "direct lattice vectors" p3 -> has "direct lattice vectors" ll = true ->
  Forall2 (outcar_block has words num (fun l t => energy l = Some t) n) steps blocks -> template_ok argsort n template -> a <= 1 -> List.length steps <= limit + a ->
  quiet has "POSITION" before -> has "POSITION" h = true -> List.length f = n -> Forall2 (writes_atom words num) (rows1 ++ l :: rows2) f ->
  quiet has "energy(" between -> has "energy(" el = true ->
  read_outcar has words num argsort nions potim energy (p1 ++ ln :: p2 ++ lt :: p3 ++ ll :: List.concat blocks ++ (before ++ h :: dashes :: rows1 ++ [l'])) last a None limit template = Crash.
Proof.
  intros nions potim energy n dt last a limit template p1 p2 p3 ln lt ll steps blocks before h dashes rows1 l rows2 between el f l' Q1 K1 N1 Q2 K2 N2 Q3 K3 HF Ht Ha Hl B1 B2 B3 B4 B5 B6.
  apply (outcar_last_step nions potim energy n dt) with (steps := steps); try assumption. intros fu c data en Hac. cbn [outcar_loop o_pos o_counter o_data o_energy]. destruct (Nat.ltb_spec (S c) a) as [F|_]; [lia|].
  rewrite (find_quiet has) by exact B1. rewrite (find_here has) by exact B2. cbn [skipn].
  apply Forall2_app_inv_l in B4. destruct B4 as (f1 & f2 & R1 & R2 & ->). destruct f2 as [|v2 f3]; [inversion R2|]. assert (R3 : Forall2 (writes_atom words num) rows2 f3) by (inversion R2; assumption).
  assert (Len : S (List.length rows1 + List.length rows2) = n) by (rewrite <- B3, app_length, (Forall2_length _ _ _ R1), (Forall2_length _ _ _ R3); cbn; lia).
  assert (Dec : (S (List.length rows1) < n \/ ~ exists v, writes_atom words num l' v) \/ S (List.length rows1) = n /\ exists v, writes_atom words num l' v).
  { destruct (Nat.eq_dec (S (List.length rows1)) n) as [E|E]; [|left; left; lia].
    unfold writes_atom. destruct (map num (firstn 3 (words l'))) as [|[x|] [|[y|] [|[z|] [|]]]] eqn:Em; try (left; right; intros [v H]; discriminate H). right. split; [exact E|]. exists (V3 x y z). reflexivity. }
  destruct Dec as [Dec|[E [v Hv]]].
  - destruct (cut_row template n rows1 f1 l' R1 ltac:(lia) Dec) as (C1 & C2 & _). rewrite C1. destruct C2 as [-> | ->]; reflexivity.
  - destruct (read_rows_ok words num argsort template n (rows1 ++ [l']) (f1 ++ [v]) [] Ht) as (rs & Er & Em).
    + rewrite app_length, <- (Forall2_length _ _ _ R1). cbn. lia.
    + apply Forall2_app; [exact R1|constructor; [exact Hv|constructor]].
    + rewrite app_nil_r in Er. rewrite Er, Em. reflexivity.
Qed.
(** OUTCAR cut inside the energy line of a step: if the keyword and a number are left, the step is read with that number as its energy *)
Theorem C130_outcar_energy_partial : forall nions potim energy n dt last a limit template p1 p2 p3 ln lt ll steps blocks before h dashes rows between f el',
  quiet has "NIONS =" p1 -> has "NIONS =" ln = true -> nions ln = Some n -> quiet has "POTIM  =" p2 -> has "POTIM  =" lt = true -> potim lt = Some dt ->
  quiet has "direct lattice vectors" p3 -> has "direct lattice vectors" ll = true ->
  Forall2 (outcar_block has words num (fun l t => energy l = Some t) n) steps blocks -> template_ok argsort n template -> a <= 1 -> List.length steps <= limit + a ->
  quiet has "POSITION" before -> has "POSITION" h = true -> List.length f = n -> Forall2 (writes_atom words num) rows f -> quiet has "energy(" between ->
  has "energy(" el' = false \/ energy el' = None ->
  read_outcar has words num argsort nions potim energy (p1 ++ ln :: p2 ++ lt :: p3 ++ ll :: List.concat blocks ++ (before ++ h :: dashes :: rows ++ between ++ [el'])) last a None limit template = Crash.
Proof.
  intros nions potim energy n dt last a limit template p1 p2 p3 ln lt ll steps blocks before h dashes rows between f el' Q1 K1 N1 Q2 K2 N2 Q3 K3 HF Ht Ha Hl B1 B2 B3 B4 B5 B6.
  apply (outcar_last_step nions potim energy n dt) with (steps := steps); try assumption. intros fu c data en Hac. cbn [outcar_loop o_pos o_counter o_data o_energy]. destruct (Nat.ltb_spec (S c) a) as [F|_]; [lia|].
  rewrite (find_quiet has) by exact B1. rewrite (find_here has) by exact B2. cbn [skipn].
  destruct (read_rows_ok words num argsort template n rows f (between ++ [el']) Ht B3 B4) as (rs & Er & Em). rewrite Er, Em. rewrite (find_quiet has) by exact B5.
  destruct (has "energy(" el') eqn:E.
  - rewrite (find_here has) by exact E. destruct B6 as [B6|B6]; [discriminate|]. cbn [need bind]. rewrite B6. reflexivity.
  - cbn [ParsersModel.find]. rewrite E. reflexivity.
Qed.
Theorem C130_outcar_energy_refuted : forall nions potim energy n dt a limit template p1 p2 p3 ln lt ll steps blocks before h dashes rows between f el' e',
  quiet has "NIONS =" p1 -> has "NIONS =" ln = true -> nions ln = Some n -> quiet has "POTIM  =" p2 -> has "POTIM  =" lt = true -> potim lt = Some dt ->
  quiet has "direct lattice vectors" p3 -> has "direct lattice vectors" ll = true ->
  Forall2 (outcar_block has words num (fun l t => energy l = Some t) n) steps blocks -> template_ok argsort n template -> a <= 1 -> List.length steps < limit ->
  quiet has "POSITION" before -> has "POSITION" h = true -> List.length f = n -> Forall2 (writes_atom words num) rows f -> quiet has "energy(" between ->
  has "energy(" el' = true -> energy el' = Some e' ->
  exists c, read_outcar has words num argsort nions potim energy (p1 ++ ln :: p2 ++ lt :: p3 ++ ll :: List.concat blocks ++ (before ++ h :: dashes :: rows ++ between ++ [el'])) None a None limit template = Ok (c, map fst steps ++ [e']) /\
  c_data c = map (arrange argsort template) (map snd steps ++ [f]).
Proof.
  intros nions potim energy n dt a limit template p1 p2 p3 ln lt ll steps blocks before h dashes rows between f el' e' Q1 K1 N1 Q2 K2 N2 Q3 K3 HF Ht Ha Hl B1 B2 B3 B4 B5 B6 B7.
  assert (D : outcar_file has words num (fun l k => nions l = Some k) (fun l t => potim l = Some t) (fun l t => energy l = Some t) n dt (steps ++ [(e', f)])
    (p1 ++ ln :: p2 ++ lt :: p3 ++ ll :: List.concat blocks ++ (before ++ h :: dashes :: rows ++ between ++ [el']))).
  { replace (List.concat blocks ++ (before ++ h :: dashes :: rows ++ between ++ [el'])) with (List.concat (blocks ++ [before ++ h :: dashes :: rows ++ between ++ [el']]) ++ []) by (rewrite concat_app; cbn [List.concat]; rewrite !app_nil_r; reflexivity).
    constructor; try assumption; [|constructor]. apply Forall2_app; [exact HF|constructor; [|constructor]]. constructor; assumption. }
  assert (X := outcar_window has words num argsort nions potim energy a None limit template n _ dt None _ Ht D I). cbv zeta in X.
  assert (W : firstn (stop a None limit - (a - 1)) (steps ++ [(e', f)]) = steps ++ [(e', f)]) by (apply firstn_all2; rewrite app_length; unfold stop; cbn [List.length]; lia).
  rewrite W in X. cbn [option_map last_opt] in X. specialize (X I). rewrite X. eexists. split; [rewrite (map_app fst); reflexivity|]. cbn [c_data]. rewrite !map_app, map_map. reflexivity.
Qed.
End Statements.
Print Assumptions C130_lammps_line_partial. Print Assumptions C130_lammps_line_refuted. Print Assumptions C130_xdatcar_line_partial. Print Assumptions C130_xdatcar_line_refuted. Print Assumptions C130_outcar_line. Print Assumptions C130_outcar_energy_partial. Print Assumptions C130_outcar_energy_refuted.

(** a dump of two steps of two atoms; the last line of the second, 0 0 5, cut to "0 0" (refused) or to "0 0 1" (as if 15 had lost its 5: read) *)
Definition w_int2 (w : string) : option nat := if String.eqb w "2" then Some 2%nat else None.
Definition w_head : list (list string) :=
  [["ITEM:"; "TIMESTEP"]; ["0"]; ["ITEM:"; "NUMBER"; "OF"; "ATOMS"]; ["2"]; ["ITEM:"; "BOX"; "BOUNDS"; "pp"; "pp"; "pp"]; ["0"; "5"]; ["0"; "5"]; ["0"; "5"]; ["ITEM:"; "ATOMS"; "x"; "y"; "z"]]%string.
Definition w_two : list (list string) := w_head ++ [["1"; "0"; "1"]%string] ++ [["0"; "0"; "5"]%string].
Lemma w_two_ok : lammps_block w_has w_words w_num w_int2 2 w_box (fun l => w_kind l = Positions) (0%R, [V3 1 0 1] ++ [V3 0 0 5]) w_two.
Proof.
  apply (lb w_has w_words w_num w_int2 2 w_box (fun l => w_kind l = Positions) ["ITEM:"; "TIMESTEP"]%string ["0"]%string ["ITEM:"; "NUMBER"; "OF"; "ATOMS"]%string ["2"]%string ["ITEM:"; "BOX"; "BOUNDS"; "pp"; "pp"; "pp"]%string
    ["0"; "5"]%string ["0"; "5"]%string ["0"; "5"]%string ["ITEM:"; "ATOMS"; "x"; "y"; "z"]%string [["1"; "0"; "1"]; ["0"; "0"; "5"]]%string 0%R [V3 1 0 1; V3 0 0 5]); try reflexivity.
  - exists "2"%string. split; reflexivity.
  - right. cbn. repeat split; repeat constructor.
  - repeat constructor.
  - repeat constructor.
  - repeat constructor.
  - repeat constructor.
  - repeat constructor.
Qed.
Example C130_line_nonvacuous :
  Forall2 (lammps_block w_has w_words w_num w_int2 2 w_box (fun l => w_kind l = Positions)) [(0%R, [V3 1 0 1] ++ [V3 0 0 5])] [w_two] /\ List.length w_head = 9 /\
  (~ exists v, writes_atom w_words w_num ["0"; "0"]%string v) /\ writes_atom w_words w_num ["0"; "0"; "1"]%string (V3 0 0 1) /\ w_has "TIMESTEP" ["0"; "0"; "1"]%string = false /\
  read_lammps w_has w_words w_num w_int2 w_kind w_argsort w_inv (w_two ++ w_head ++ [["1"; "0"; "1"]%string] ++ [["0"; "0"]%string]) (mdiag 1 1 1) 1 None 1 None 100 false None = Crash /\
  read_xdatcar w_has w_words w_num w_int w_eq w_argsort (firstn 10 w_xdatcar ++ [["2"; "0"]%string]) 1 None 1 None 100 false None = Crash /\
  exists c, read_xdatcar w_has w_words w_num w_int w_eq w_argsort (firstn 10 w_xdatcar ++ [["2"; "0"; "5"]%string]) 1 None 1 None 100 false None = Ok (c, mdiag 5 5 5) /\ c_data c = [[V3 1 0 1]; [V3 2 0 5]] /\
  (exists c', read_outcar w_has w_words w_num w_argsort (fun l => match l with [_; w] => w_int w | _ => None end) w_energy w_energy (firstn 12 w_outcar ++ [["energy("; "1"]%string]) None 1 None 100 None = Ok (c', [1; 1]%R)) /\
  read_outcar w_has w_words w_num w_argsort (fun l => match l with [_; w] => w_int w | _ => None end) w_energy w_energy (firstn 12 w_outcar ++ [["energy("]%string]) None 1 None 100 None = Crash.
Proof.
  split; [constructor; [exact w_two_ok|constructor]|]. split; [reflexivity|]. split; [intros [v H]; discriminate H|]. split; [reflexivity|]. split; [reflexivity|]. split.
  - apply (C130_lammps_line_partial w_has w_words w_num w_int2 w_kind w_argsort w_inv (mdiag 1 1 1) 2 w_box Positions 1 None 1 100 None [(0%R, [V3 1 0 1] ++ [V3 0 0 5])] [w_two] w_head [["1"; "0"; "1"]%string] ["0"; "0"; "5"]%string [] 0%R ([V3 1 0 1] ++ [V3 0 0 5])).
    + exact I.
    + lia.
    + lia.
    + discriminate.
    + cbn. lia.
    + constructor; [exact w_two_ok|constructor].
    + exact w_two_ok.
    + reflexivity.
    + discriminate.
    + right. intros [v H]. discriminate H.
  - split; [reflexivity|]. eexists. split; [reflexivity|]. split; [reflexivity|]. split; [eexists; reflexivity|reflexivity].
Qed.
Print Assumptions C130_line_nonvacuous.
