(** C130: a trajectory file that ends in the middle of a step (a simulation that was stopped while writing, a partial copy).
    [steps] are the complete steps and [cut] a proper, non-empty beginning of the next one, in whole lines. *)
From Verif Require Import ParsersModel ParsersSpec ParsersProofs ParsersMore.
From Coq Require Import Lia.
Open Scope string_scope.
Open Scope list_scope.
Open Scope nat_scope.

(** a proper, non-empty beginning of a list of lines *)
Definition beginning {L} (cut blk : list L) : Prop := exists rest, rest <> [] /\ cut <> [] /\ blk = cut ++ rest.

Section Statements.
Context {L T : Type} (has : string -> L -> bool) (words : L -> list T) (num : T -> option R) (int : T -> option nat)
        (after_eq : L -> option R) (kind : L -> label_kind) (argsort : list R -> list nat) (inv : mat -> mat).

Lemma rows_of_atoms rows f : Forall2 (writes_atom words num) rows f -> map (row3 words num) rows = map (fun v => Some [vx v; vy v; vz v]) f.
Proof. induction 1 as [|l v rows f H _ IH]; [reflexivity|]. cbn [map]. rewrite (row3_ok _ _ _ _ H), IH. reflexivity. Qed.
Lemma all_some_app {A} (l m : list (option A)) : all_some (l ++ m) = match all_some l with Some x => match all_some m with Some y => Some (x ++ y) | None => None end | None => None end.
Proof.
  induction l as [|[x|] l IH]; cbn [app all_some].
  - destruct (all_some m); reflexivity.
  - rewrite IH. destruct (all_some l); [|reflexivity]. destruct (all_some m); reflexivity.
  - reflexivity.
Qed.
Lemma all_some_repeat {A} (x : A) k : all_some (repeat (Some x) k) = Some (repeat x k).
Proof. induction k as [|k IH]; [reflexivity|]. cbn [repeat all_some]. rewrite IH. reflexivity. Qed.
(** the rows of a step of n atoms of which only some were written *)
Lemma cut_frame template n rows f : Forall2 (writes_atom words num) rows f -> List.length rows < n ->
  read_rows words num n rows = (map (row3 words num) rows ++ repeat (Some []) (n - List.length rows), []) /\
  make_frame argsort template (map (row3 words num) rows ++ repeat (Some []) (n - List.length rows)) = match rows with [] => ShortFrame | _ => BadFrame end.
Proof.
  intros H Hn. split; [unfold read_rows; rewrite firstn_all2, skipn_all2 by lia; reflexivity|].
  unfold make_frame. rewrite (rows_of_atoms _ _ H), all_some_app, all_some_repeat.
  replace (map (fun v => Some [vx v; vy v; vz v]) f) with (map Some (map (fun v => [vx v; vy v; vz v]) f)) by (rewrite map_map; reflexivity).
  rewrite all_some_map.
  assert (K : exists k, n - List.length rows = S k) by (exists (n - List.length rows - 1); lia). destruct K as [k ->]. cbn [repeat].
  assert (N : all_some (map vec_of (map (fun v => [vx v; vy v; vz v]) f ++ [] :: repeat [] k)) = None).
  { rewrite map_app. cbn [map vec_of]. clear. induction f as [|v f IH]; [reflexivity|]. cbn [map app all_some vec_of]. rewrite IH. reflexivity. }
  rewrite N. destruct H as [|l v rows f Hl Hr].
  - cbn [map app hd List.length forallb]. rewrite Nat.eqb_refl. cbn [andb].
    assert (E : forallb (fun r : list R => Nat.eqb (List.length r) 0) (repeat [] k) = true) by (clear; induction k as [|k IH]; [reflexivity|exact IH]).
    rewrite E. reflexivity.
  - cbn [map app hd]. match goal with |- (if ?x then _ else _) = _ => assert (E : x = false) end.
    { rewrite <- not_true_iff_false. intros E. rewrite forallb_forall in E. specialize (E [] ltac:(right; apply in_or_app; right; left; reflexivity)). discriminate E. }
    rewrite E. reflexivity.
Qed.

(** ** LAMMPS *)
Section Lammps.
Context (cell : mat) (a limit : nat) (template : option (list R)) (n : nat) (bx : box) (k : label_kind).
Notation block := (lammps_block has words num int n bx (fun l => kind l = k)).
Notation loop file := (lammps_loop has words num int argsort inv file cell a None limit false template).
Notation hd_ := (header_of inv cell n bx).
Notation item s := (map (fun v => vmul v (transformation inv cell (box_lattice bx))) (arrange argsort template (snd s))).
Lemma lammps_runs file tail_ (Ht : template_ok argsort n template) steps blocks : Forall2 block steps blocks ->
  forall fuel c junk time data l0, a <= S c -> c + List.length steps <= limit + a -> quiet has "TIMESTEP" junk -> kind l0 = k ->
  exists junk' l1, quiet has "TIMESTEP" junk' /\ kind l1 = k /\
  loop file (List.length steps + fuel) (MkL c (junk ++ List.concat blocks ++ tail_) time data (Some hd_) (Some l0)) =
  loop file fuel (MkL (c + List.length steps) (junk' ++ tail_) (time ++ map fst steps) (data ++ map (fun s => item s) steps) (Some hd_) (Some l1)).
Proof.
  induction 1 as [|s blk steps blocks Hs Hsteps IH]; intros fuel c junk time data l0 Ha Hc Hj Hl0.
  - exists junk, l0. split; [exact Hj|]. split; [exact Hl0|]. cbn [List.length Nat.add List.concat app map]. rewrite !app_nil_r, Nat.add_0_r. reflexivity.
  - destruct Hs as [h1 v h2 cc h3 x y z h4 rows t f H1 Hv H2 Hcc H3 Hb H4 Hk Hf Hr Q1 Q2 Q3 Q4].
    cbn [List.length] in Hc |- *. cbn [Nat.add List.concat]. cbn [lammps_loop l_pos l_time l_data l_hdr l_label l_counter].
    rewrite (find_quiet has) by exact Hj. cbn [app]. rewrite (find_here has) by exact H1. rewrite (value_ok words num _ _ Hv). cbn [need bind].
    rewrite <- app_assoc.
    assert (E : ParsersModel.find has "ITEM: ATOMS" (h2 :: cc :: h3 :: x :: y :: z :: h4 :: rows ++ List.concat blocks ++ tail_) = Some (h4 :: rows ++ List.concat blocks ++ tail_)).
    { change (h2 :: cc :: h3 :: x :: y :: z :: h4 :: rows ++ List.concat blocks ++ tail_) with ([h2; cc; h3; x; y; z] ++ h4 :: rows ++ List.concat blocks ++ tail_). rewrite (find_quiet has); [apply (find_here has), H4|]. apply (quiet_app_r has _ [h1; v]). exact Q4. }
    rewrite E. cbn [need bind]. destruct (Nat.ltb_spec (S c) a) as [F|_]; [lia|].
    destruct (read_rows_ok words num argsort template n rows f (List.concat blocks ++ tail_) Ht Hf Hr) as (rs & Er & Em). cbn [h_natoms header_of]. rewrite Er, Em. cbn [bind].
    destruct (Nat.ltb_spec (limit + a) (S c)) as [F|_]; [lia|].
    destruct (IH fuel (S c) [] (time ++ [t]) (data ++ [item (t, f)]) h4) as (junk' & l1 & J & K & E'); [lia|lia|constructor|exact Hk|].
    exists junk', l1. split; [exact J|]. split; [exact K|]. cbn [app] in E'. etransitivity; [exact E'|]. f_equal. cbn [map]. rewrite <- !app_assoc. cbn [app]. f_equal. lia.
Qed.
Lemma lammps_first_cut s blk rest fuel l0 : block s blk ->
  loop (blk ++ rest) (S fuel) (MkL 0 (blk ++ rest) [] [] None None) = loop (blk ++ rest) (S fuel) (MkL 0 (blk ++ rest) [] [] (Some hd_) (Some l0)).
Proof.
  intros Hs. destruct (header_ok has words num int inv cell n bx _ s blk rest Hs) as (h4 & rows & Eb & Eh). cbn [lammps_loop l_pos l_time l_data l_hdr l_label l_counter].
  destruct Hs as [h1 v h2 cc h3 x y z h4' rows' t f H1 Hv H2 Hc H3 Hb H4 Hk Hf Hr Q1 Q2 Q3 Q4].
  cbn [firstn app] in Eb. injection Eb as <- <-. cbn [app] in Eh |- *. rewrite (find_here has) by exact H1.
  rewrite (value_ok words num _ _ Hv). cbn [need bind]. rewrite Eh. cbn [need bind].
  assert (E : ParsersModel.find has "ITEM: ATOMS" (h2 :: cc :: h3 :: x :: y :: z :: h4' :: rows' ++ rest) = Some (h4' :: rows' ++ rest)).
  { change (h2 :: cc :: h3 :: x :: y :: z :: h4' :: rows' ++ rest) with ([h2; cc; h3; x; y; z] ++ h4' :: rows' ++ rest). rewrite (find_quiet has); [apply (find_here has), H4|]. apply (quiet_app_r has _ [h1; v]). exact Q4. }
  rewrite E, (find_here has) by exact H4. reflexivity.
Qed.
(** what the loop does with a cut step *)
Lemma lammps_cut_step file s blk cut junk fuel c time data l0 : block s blk -> beginning cut blk -> a <= S c -> 0 < n -> quiet has "TIMESTEP" junk ->
  loop file (S fuel) (MkL c (junk ++ cut) time data (Some hd_) (Some l0)) =
  if List.length cut =? 9 then Ok (MkL (S c) [] (time ++ [fst s]) data (Some hd_) (nth_error cut 8)) else Crash.
Proof.
  intros Hs (rest & Nr & Nc & Eb) Ha Hn Hj. destruct Hs as [h1 v h2 cc h3 x y z h4 rows t f H1 Hv H2 Hcc H3 Hb H4 Hk Hf Hr Q1 Q2 Q3 Q4].
  cbn [lammps_loop l_pos l_time l_data l_hdr l_label l_counter]. rewrite (find_quiet has) by exact Hj.
  destruct cut as [|c1 cut]; [congruence|]. cbn [app] in Eb. injection Eb as <- Eb. rewrite (find_here has) by exact H1.
  destruct cut as [|c2 cut]; [reflexivity|]. cbn [app] in Eb. injection Eb as <- Eb. rewrite (value_ok words num _ _ Hv). cbn [need bind].
  (* is there a label? *)
  assert (NA : forall p, (exists q, [h2; cc; h3; x; y; z] = p ++ q) -> ParsersModel.find has "ITEM: ATOMS" p = None).
  { intros p [q Hp]. apply (find_none has).
    assert (Q5 : quiet has "ITEM: ATOMS" [h2; cc; h3; x; y; z]) by (apply (quiet_app_r has _ [h1; v]); exact Q4). rewrite Hp in Q5. exact (quiet_app_l has _ _ _ Q5). }
  destruct (Nat.le_gt_cases (List.length cut) 6) as [F|F].
  - assert (P : exists q, [h2; cc; h3; x; y; z] = cut ++ q).
    { exists (firstn (6 - List.length cut) rest). assert (X : [h2; cc; h3; x; y; z] = firstn 6 (cut ++ rest)) by (rewrite <- Eb; reflexivity). rewrite X. rewrite firstn_app, (firstn_all2 (n := 6) cut) by lia. reflexivity. }
    rewrite (NA _ P). cbn [need bind List.length]. destruct (Nat.eqb_spec (S (S (List.length cut))) 9) as [F'|_]; [lia|reflexivity].
  - assert (P : exists rows1, cut = [h2; cc; h3; x; y; z; h4] ++ rows1 /\ rows = rows1 ++ rest).
    { exists (skipn 7 cut). split.
      - assert (X : [h2; cc; h3; x; y; z; h4] = firstn 7 (cut ++ rest)) by (rewrite <- Eb; reflexivity). rewrite firstn_app in X. replace (7 - List.length cut) with 0 in X by lia. rewrite firstn_O, app_nil_r in X.
        transitivity (firstn 7 cut ++ skipn 7 cut); [symmetry; apply firstn_skipn|]. rewrite <- X. reflexivity.
      - assert (X : rows = skipn 7 (cut ++ rest)) by (rewrite <- Eb; reflexivity). rewrite X. rewrite skipn_app. replace (7 - List.length cut) with 0 by lia. reflexivity. }
    destruct P as (rows1 & -> & Er). subst rows.
    assert (E : ParsersModel.find has "ITEM: ATOMS" ([h2; cc; h3; x; y; z; h4] ++ rows1) = Some (h4 :: rows1)).
    { change ([h2; cc; h3; x; y; z; h4] ++ rows1) with ([h2; cc; h3; x; y; z] ++ h4 :: rows1). rewrite (find_quiet has); [apply (find_here has), H4|]. apply (quiet_app_r has _ [h1; v]). exact Q4. }
    rewrite E. cbn [need bind]. destruct (Nat.ltb_spec (S c) a) as [F'|_]; [lia|]. cbn [h_natoms header_of].
    assert (P2 : exists f1, Forall2 (writes_atom words num) rows1 f1 /\ List.length rows1 < n).
    { apply Forall2_app_inv_l in Hr. destruct Hr as (f1 & f2 & R1 & R2 & ->). exists f1. split; [exact R1|]. rewrite <- Hf, app_length, (Forall2_length _ _ _ R1).
      destruct R2; [congruence|]. cbn [List.length]. lia. }
    destruct P2 as (f1 & R1 & L1). destruct (cut_frame template n rows1 f1 R1 L1) as [C1 C2]. rewrite C1, C2.
    destruct rows1 as [|r rows1]; [reflexivity|]. cbn [app List.length]. destruct (Nat.eqb_spec (S (S (S (S (S (S (S (S (S (S (List.length rows1)))))))))) ) 9) as [F'|_]; [lia|reflexivity].
Qed.
Lemma lammps_cut file steps blocks s blk cut dt last : template_ok argsort n template -> a <= 1 -> 0 < n -> steps <> [] -> List.length steps <= limit + a ->
  Forall2 block steps blocks -> block s blk -> beginning cut blk -> file = List.concat blocks ++ cut ->
  exists l1, (List.length cut = 9 -> kind l1 = k) /\
  read_lammps has words num int kind argsort inv file cell dt last a None limit false template =
  if List.length cut =? 9
  then bind (cut_last last (map (fun t => t * dt)%R (map fst (steps ++ [s]))) (map (fun s => item s) steps))
            (fun r => match kind l1 with Unrecognised => Exit | k => Ok (MkLR k (MkContent (fst r) (snd r)) (h_supercell hd_)) end)
  else Crash.
Proof.
  intros Ht Ha Hn Hne Hl HF Hs Hb ->. destruct HF as [|s1 blk1 steps blocks Hs1 HF]; [congruence|].
  assert (Hl0 : exists l0, kind l0 = k) by (destruct Hs1; eauto). destruct Hl0 as [l0 Hl0].
  assert (HF' : Forall2 block (s1 :: steps) (blk1 :: blocks)) by (constructor; assumption).
  set (file := List.concat (blk1 :: blocks) ++ cut).
  assert (Ef : file = blk1 ++ (List.concat blocks ++ cut)) by (unfold file; cbn [List.concat]; rewrite <- app_assoc; reflexivity).
  assert (Hle : List.length (s1 :: steps) < List.length file).
  { unfold file. rewrite app_length. assert (List.length cut <> 0) by (destruct Hb as (r & _ & X & _); destruct cut; [congruence|discriminate]).
    assert (X : List.length (s1 :: steps) <= List.length (List.concat (blk1 :: blocks))); [|lia]. clear -HF'. induction HF' as [|s2 blk2 steps2 blocks2 Hs Hr IH]; [cbn; lia|]. cbn [List.concat]. rewrite app_length. destruct Hs. rewrite app_length. cbn [List.length]. lia. }
  assert (First : forall fu, loop file (S fu) (MkL 0 file [] [] None None) = loop file (S fu) (MkL 0 file [] [] (Some hd_) (Some l0))).
  { intros fu. rewrite Ef. apply (lammps_first_cut s1 blk1 _ _ l0 Hs1). }
  unfold read_lammps. rewrite First.
  assert (Fu : exists fu, S (List.length file) = List.length (s1 :: steps) + S fu) by (exists (List.length file - List.length (s1 :: steps)); lia). destruct Fu as [fu Efu]. rewrite Efu.
  destruct (lammps_runs file cut Ht _ _ HF' (S fu) 0 [] [] [] l0 ltac:(lia) ltac:(lia) ltac:(constructor) Hl0) as (junk & l1 & J & K1 & E). cbn [app] in E. fold file in E. rewrite E.
  rewrite (lammps_cut_step file s blk cut junk fu _ _ _ l1 Hs Hb ltac:(lia) Hn J).
  destruct (Nat.eqb_spec (List.length cut) 9) as [F|F]; [|exists l0; split; [intros; congruence|reflexivity]].
  destruct (nth_error cut 8) as [l9|] eqn:E9; [|apply nth_error_None in E9; lia].
  exists l9. split.
  - intros _. destruct Hb as (rest & _ & _ & Eb). destruct Hs as [h1 v h2 cc h3 x y z h4 rows t f H1 Hv H2 Hcc H3 Hbb H4 Hk Hf Hr Q1 Q2 Q3 Q4].
    assert (X : nth_error (([h1; v; h2; cc; h3; x; y; z; h4] ++ rows)) 8 = Some l9) by (rewrite Eb, nth_error_app1 by lia; exact E9). cbn in X. injection X as <-. exact Hk.
  - cbn [bind l_time l_data l_hdr l_label Nat.add app].
    replace (map fst (s1 :: steps) ++ [fst s]) with (map fst ((s1 :: steps) ++ [s])) by (rewrite map_app; reflexivity).
    destruct (cut_last last _ _) as [[t' d']| | |]; reflexivity.
Qed.
End Lammps.

(** ** XDATCAR *)
Section Xdatcar.
Context (a limit : nat) (template : option (list R)) (n : nat).
Notation block := (xdatcar_block has words num (fun l t => after_eq l = Some t) n).
Notation loop := (xdatcar_loop has words num after_eq argsort n a None limit false template).
Lemma xdatcar_runs tail_ (Ht : template_ok argsort n template) steps blocks : Forall2 block steps blocks ->
  forall fuel c junk time data, a <= S c -> c + List.length steps <= limit + a -> quiet has "Direct configuration" junk ->
  exists junk' time' data', quiet has "Direct configuration" junk' /\
  loop (List.length steps + fuel) (MkX c (junk ++ List.concat blocks ++ tail_) time data) = loop fuel (MkX (c + List.length steps) (junk' ++ tail_) time' data').
Proof.
  induction 1 as [|s blk steps blocks Hs Hsteps IH]; intros fuel c junk time data Ha Hc Hj.
  - exists junk, time, data. split; [exact Hj|]. cbn [List.length Nat.add List.concat app]. rewrite Nat.add_0_r. reflexivity.
  - destruct Hs as [h rows t f H1 Hv Hf Hr Q]. cbn [List.length] in Hc |- *. cbn [Nat.add List.concat]. cbn [xdatcar_loop x_pos x_time x_data x_counter].
    rewrite (find_quiet has) by exact Hj. cbn [app]. rewrite (find_here has) by exact H1. rewrite Hv. cbn [need bind]. destruct (Nat.ltb_spec (S c) a) as [F|_]; [lia|].
    rewrite <- app_assoc. destruct (read_rows_ok words num argsort template n rows f (List.concat blocks ++ tail_) Ht Hf Hr) as (rs & Er & Em). rewrite Er, Em. cbn [bind].
    destruct (Nat.ltb_spec (limit + a) (S c)) as [F|_]; [lia|].
    destruct (IH fuel (S c) [] (time ++ [t]) (data ++ [arrange argsort template f])) as (junk' & t' & d' & J & E'); [lia|lia|constructor|].
    exists junk', t', d'. split; [exact J|]. cbn [app] in E'. etransitivity; [exact E'|]. f_equal. f_equal. lia.
Qed.
Lemma xdatcar_cut_step s blk cut junk fuel c time data : block s blk -> beginning cut blk -> a <= S c -> quiet has "Direct configuration" junk ->
  loop (S fuel) (MkX c (junk ++ cut) time data) = Crash.
Proof.
  intros Hs (rest & Nr & Nc & Eb) Ha Hj. destruct Hs as [h rows t f H1 Hv Hf Hr Q]. cbn [xdatcar_loop x_pos x_time x_data x_counter].
  rewrite (find_quiet has) by exact Hj. destruct cut as [|c1 cut]; [congruence|]. cbn [app] in Eb. injection Eb as <- Eb. rewrite (find_here has) by exact H1. rewrite Hv. cbn [need bind].
  destruct (Nat.ltb_spec (S c) a) as [F|_]; [lia|]. subst rows. apply Forall2_app_inv_l in Hr. destruct Hr as (f1 & f2 & R1 & R2 & ->).
  assert (L1 : List.length cut < n) by (rewrite <- Hf, app_length, (Forall2_length _ _ _ R1); destruct R2; [congruence|cbn [List.length]; lia]).
  destruct (cut_frame template n cut f1 R1 L1) as [C1 C2]. rewrite C1, C2. destruct cut; reflexivity.
Qed.
End Xdatcar.

(** ** OUTCAR *)
Section Outcar.
Context (nions : L -> option nat) (potim energy : L -> option R) (a limit : nat) (template : option (list R)) (n : nat).
Notation block := (outcar_block has words num (fun l t => energy l = Some t) n).
Notation loop := (outcar_loop has words num argsort n a None limit template energy).
Lemma outcar_runs tail_ (Ht : template_ok argsort n template) steps blocks : Forall2 block steps blocks ->
  forall fuel c data en, a <= S c -> c + List.length steps <= limit + a ->
  loop (List.length steps + fuel) (MkO c (List.concat blocks ++ tail_) data en) =
  loop fuel (MkO (c + List.length steps) tail_ (data ++ map (fun s => arrange argsort template (snd s)) steps) (en ++ map fst steps)).
Proof.
  induction 1 as [|s blk steps blocks Hs Hsteps IH]; intros fuel c data en Ha Hc.
  - cbn [List.length Nat.add List.concat app map]. rewrite Nat.add_0_r, !app_nil_r. reflexivity.
  - destruct Hs as [before h dashes rows between el e f Q1 H1 Hf Hr Q2 H2 He]. cbn [List.length] in Hc |- *. cbn [Nat.add]. cbn [outcar_loop o_pos o_counter o_data o_energy].
    destruct (Nat.ltb_spec (S c) a) as [F|_]; [lia|].
    assert (Epos : List.concat ((before ++ h :: dashes :: rows ++ between ++ [el]) :: blocks) ++ tail_ = before ++ h :: dashes :: rows ++ between ++ el :: List.concat blocks ++ tail_).
    { cbn [List.concat]. rewrite <- !app_assoc. cbn [app]. rewrite <- !app_assoc. reflexivity. }
    rewrite Epos. rewrite (find_quiet has) by exact Q1. rewrite (find_here has) by exact H1. cbn [skipn].
    destruct (read_rows_ok words num argsort template n rows f (between ++ el :: List.concat blocks ++ tail_) Ht Hf Hr) as (rs & Er & Em).
    rewrite Er, Em. rewrite (find_quiet has) by exact Q2. rewrite (find_here has) by exact H2. cbn [need bind]. rewrite He. cbn [need bind].
    destruct (Nat.ltb_spec (limit + a) (S c)) as [F|_]; [lia|]. rewrite IH by lia. cbn [map]. rewrite <- !app_assoc. cbn [app fst snd]. f_equal. f_equal. lia.
Qed.
(** a cut step in which the header was reached *)
Lemma outcar_cut_step before h dashes rows between el f fuel c data en cut rest :
  quiet has "POSITION" before -> has "POSITION" h = true -> List.length f = n -> Forall2 (writes_atom words num) rows f -> quiet has "energy(" between -> has "energy(" el = true ->
  rest <> [] -> dashes :: rows ++ between ++ [el] = cut ++ rest -> a <= S c -> template_ok argsort n template ->
  loop (S fuel) (MkO c (before ++ h :: cut) data en) = Crash.
Proof.
  intros Q1 H1 Hf Hr Q2 H2 Nr Eb Ha Ht. cbn [outcar_loop o_pos o_counter o_data o_energy]. destruct (Nat.ltb_spec (S c) a) as [F|_]; [lia|].
  rewrite (find_quiet has) by exact Q1. rewrite (find_here has) by exact H1.
  destruct cut as [|d cut].
  - cbn [skipn]. destruct (Nat.eq_dec n 0) as [N0|N0].
    + unfold read_rows. cbn [List.length]. rewrite N0. cbn [Nat.sub repeat firstn skipn map app]. unfold make_frame. cbn [all_some map]. destruct template as [t|]; [|reflexivity].
      destruct (ParsersModel.gather (argsort t) []); reflexivity.
    + destruct (cut_frame template n [] [] ltac:(constructor) ltac:(cbn; lia)) as [C1 C2]. rewrite C1, C2. reflexivity.
  - cbn [app] in Eb. injection Eb as <- Eb. cbn [skipn].
    destruct (Nat.le_gt_cases (List.length rows) (List.length cut)) as [F|F].
    + assert (P : exists c2, cut = rows ++ c2 /\ between ++ [el] = c2 ++ rest).
      { exists (skipn (List.length rows) cut). split.
        - assert (X := f_equal (firstn (List.length rows)) Eb). rewrite !firstn_app in X. rewrite Nat.sub_diag in X. replace (List.length rows - List.length cut) with 0 in X by lia. cbn [firstn] in X. rewrite !app_nil_r, firstn_all in X.
          transitivity (firstn (List.length rows) cut ++ skipn (List.length rows) cut); [symmetry; apply firstn_skipn|]. rewrite <- X. reflexivity.
        - assert (X := f_equal (skipn (List.length rows)) Eb). rewrite !skipn_app in X. rewrite Nat.sub_diag, skipn_all in X. replace (List.length rows - List.length cut) with 0 in X by lia. cbn [skipn app] in X. exact X. }
      destruct P as (c2 & -> & E2).
      destruct (read_rows_ok words num argsort template n rows f c2 Ht Hf Hr) as (rs & Er & Em). rewrite Er, Em.
      assert (N : ParsersModel.find has "energy(" c2 = None).
      { apply (find_none has). destruct (exists_last Nr) as (r' & x & ->). rewrite app_assoc in E2. apply app_inj_tail in E2. destruct E2 as [E2 _]. rewrite E2 in Q2. exact (quiet_app_l has _ _ _ Q2). }
      rewrite N. reflexivity.
    + assert (P : exists r2, rows = cut ++ r2).
      { exists (skipn (List.length cut) rows). assert (X := f_equal (firstn (List.length cut)) Eb). rewrite !firstn_app in X. rewrite Nat.sub_diag in X. replace (List.length cut - List.length rows) with 0 in X by lia. cbn [firstn] in X. rewrite !app_nil_r, firstn_all in X.
        transitivity (firstn (List.length cut) rows ++ skipn (List.length cut) rows); [symmetry; apply firstn_skipn|]. rewrite X. reflexivity. }
      destruct P as (r2 & ->). apply Forall2_app_inv_l in Hr. destruct Hr as (f1 & f2 & R1 & R2 & ->).
      assert (L1 : List.length cut < n). { rewrite <- Hf, app_length, (Forall2_length _ _ _ R1). rewrite app_length in F. destruct R2; [cbn in F; lia|cbn [List.length]; lia]. }
      destruct (cut_frame template n cut f1 R1 L1) as [C1 C2]. rewrite C1, C2. destruct cut; reflexivity.
Qed.
End Outcar.

(** * C130 *)
Notation dump_block n b k := (lammps_block has words num int n b (fun l => kind l = k)).
Notation lammps := (read_lammps has words num int kind argsort inv).
(** A LAMMPS dump cut inside a step is refused, unless its last line is the one announcing the atoms ... *)
Theorem C130_lammps_partial : forall cell n b k dt last a limit template steps blocks s blk cut,
  template_ok argsort n template -> a <= 1 -> 0 < n -> steps <> [] -> List.length steps <= limit + a ->
  Forall2 (dump_block n b k) steps blocks -> dump_block n b k s blk -> beginning cut blk ->
  (forall body l, cut = body ++ [l] -> has "ITEM: ATOMS" l = false) ->
  lammps (List.concat blocks ++ cut) cell dt last a None limit false template = Crash.
Proof.
  intros cell n b k dt last a limit template steps blocks s blk cut Ht Ha Hn Hne Hl HF Hs Hb HL.
  destruct (lammps_cut cell a limit template n b k _ steps blocks s blk cut dt last Ht Ha Hn Hne Hl HF Hs Hb eq_refl) as (l1 & _ & E). rewrite E.
  destruct (Nat.eqb_spec (List.length cut) 9) as [F|_]; [exfalso|reflexivity].
  destruct Hb as (rest & _ & _ & Eb). destruct Hs as [h1 v h2 cc h3 x y z h4 rows t f H1 Hv H2 Hcc H3 Hbb H4 Hk Hf Hr Q1 Q2 Q3 Q4].
  assert (X : [h1; v; h2; cc; h3; x; y; z; h4] = firstn 9 (cut ++ rest)) by (rewrite <- Eb; reflexivity). rewrite firstn_app, F, firstn_all2, Nat.sub_diag, firstn_O, app_nil_r in X by lia.
  rewrite (HL [h1; v; h2; cc; h3; x; y; z] h4 (eq_sym X)) in H4. discriminate H4.
Qed.
(** ... in that one case it is accepted: the frames are those of the complete steps, but there is one time too many. *)
Theorem C130_lammps_refuted : forall cell n b k dt a limit template steps blocks s blk cut body l,
  template_ok argsort n template -> a <= 1 -> 0 < n -> steps <> [] -> List.length steps <= limit + a -> k <> Unrecognised ->
  Forall2 (dump_block n b k) steps blocks -> dump_block n b k s blk -> beginning cut blk -> cut = body ++ [l] -> List.length body = 8 ->
  exists r, lammps (List.concat blocks ++ cut) cell dt None a None limit false template = Ok r /\
  List.length (c_data (lr_content r)) = List.length steps /\ c_time (lr_content r) = map (fun x => fst x * dt)%R (steps ++ [s]) /\
  List.length (c_time (lr_content r)) <> List.length (c_data (lr_content r)).
Proof.
  intros cell n b k dt a limit template steps blocks s blk cut body l Ht Ha Hn Hne Hl Hk HF Hs Hb Ec Lb.
  destruct (lammps_cut cell a limit template n b k _ steps blocks s blk cut dt None Ht Ha Hn Hne Hl HF Hs Hb eq_refl) as (l1 & K1 & E). rewrite E.
  assert (L9 : List.length cut = 9) by (rewrite Ec, app_length, Lb; reflexivity). rewrite L9. cbn [Nat.eqb cut_last bind fst snd]. rewrite (K1 L9).
  destruct k; [| |congruence]; (eexists; split; [reflexivity|]; cbn [c_data c_time lr_content]; rewrite !map_length, map_map; split; [reflexivity|]; split; [reflexivity|]; rewrite app_length; cbn [List.length]; lia).
Qed.
(** An XDATCAR cut inside a step is refused. *)
Theorem C130_xdatcar : forall cell ns dt last a limit template c0 scale la lb lc elements counts steps blocks s blk cut,
  xdatcar_file has words num int (fun l t => after_eq l = Some t) cell ns steps (c0 :: scale :: la :: lb :: lc :: elements :: counts :: List.concat blocks) ->
  Forall2 (xdatcar_block has words num (fun l t => after_eq l = Some t) (list_sum ns)) steps blocks ->
  xdatcar_block has words num (fun l t => after_eq l = Some t) (list_sum ns) s blk -> beginning cut blk ->
  template_ok argsort (list_sum ns) template -> a <= 1 -> steps <> [] -> List.length steps <= limit + a ->
  read_xdatcar has words num int after_eq argsort (c0 :: scale :: la :: lb :: lc :: elements :: counts :: List.concat blocks ++ cut) dt last a None limit false template = Crash.
Proof.
  intros cell ns dt last a limit template c0 scale la lb lc elements counts steps blocks s blk cut Hx HF Hs Hb Ht Ha Hne Hl.
  assert (W : writes_numbers words num la [vx (r0 cell); vy (r0 cell); vz (r0 cell)] /\ writes_numbers words num lb [vx (r1 cell); vy (r1 cell); vz (r1 cell)] /\
    writes_numbers words num lc [vx (r2 cell); vy (r2 cell); vz (r2 cell)] /\ map int (words counts) = map Some ns) by (inversion Hx; subst; repeat split; assumption).
  destruct W as (W1 & W2 & W3 & W4).
  unfold read_xdatcar. rewrite (fields_ok words num _ _ W1), (fields_ok words num _ _ W2), (fields_ok words num _ _ W3). cbn [vec_of need bind]. rewrite W4, all_some_map. cbn [need bind].
  assert (Hle : List.length steps <= List.length (List.concat blocks ++ cut)).
  { rewrite app_length. clear -HF. induction HF as [|s blk steps blocks Hs Hr IH]; [cbn; lia|]. cbn [List.concat List.length]. rewrite app_length. destruct Hs. cbn [List.length]. lia. }
  set (fu := S (List.length (c0 :: scale :: la :: lb :: lc :: elements :: counts :: List.concat blocks ++ cut))).
  assert (Fu : exists f0, fu = List.length steps + S f0) by (exists (fu - List.length steps - 1); unfold fu; cbn [List.length]; lia). destruct Fu as [f0 ->].
  destruct (xdatcar_runs a limit template (list_sum ns) cut Ht steps blocks HF (S f0) 0 [] [] [] ltac:(lia) ltac:(lia) ltac:(constructor)) as (junk & t' & d' & J & E). cbn [app] in E. rewrite E.
  rewrite (xdatcar_cut_step a limit template (list_sum ns) s blk cut junk f0 _ t' d' Hs Hb ltac:(lia) J). reflexivity.
Qed.
(** An OUTCAR cut inside a step, anywhere between its POSITION header and its energy, is refused. *)
Theorem C130_outcar : forall nions potim energy n dt last a limit template p1 p2 p3 ln lt ll steps blocks before h dashes rows between el e f cut rest,
  quiet has "NIONS =" p1 -> has "NIONS =" ln = true -> nions ln = Some n -> quiet has "POTIM  =" p2 -> has "POTIM  =" lt = true -> potim lt = Some dt ->
  quiet has "direct lattice vectors" p3 -> has "direct lattice vectors" ll = true ->
  Forall2 (outcar_block has words num (fun l t => energy l = Some t) n) steps blocks ->
  quiet has "POSITION" before -> has "POSITION" h = true -> List.length f = n -> Forall2 (writes_atom words num) rows f ->
  quiet has "energy(" between -> has "energy(" el = true -> energy el = Some e ->
  rest <> [] -> dashes :: rows ++ between ++ [el] = cut ++ rest ->
  template_ok argsort n template -> a <= 1 -> List.length steps <= limit + a ->
  read_outcar has words num argsort nions potim energy (p1 ++ ln :: p2 ++ lt :: p3 ++ ll :: List.concat blocks ++ before ++ h :: cut) last a None limit template = Crash.
Proof.
  intros nions potim energy n dt last a limit template p1 p2 p3 ln lt ll steps blocks before h dashes rows between el e f cut rest
    Q1 K1 N1 Q2 K2 N2 Q3 K3 HF B1 B2 B3 B4 B5 B6 B7 Nr Eb Ht Ha Hl.
  unfold read_outcar. rewrite (find_quiet has) by exact Q1. rewrite (find_here has) by exact K1. cbn [need bind tl]. rewrite N1. cbn [need bind].
  rewrite (find_quiet has) by exact Q2. rewrite (find_here has) by exact K2. cbn [need bind tl]. rewrite N2. cbn [need bind].
  rewrite (find_quiet has) by exact Q3. rewrite (find_here has) by exact K3. cbn [need bind tl].
  match goal with |- context [outcar_loop _ _ _ _ _ _ _ _ _ _ ?x _] => set (fu := x) end.
  assert (Hle : List.length steps + 1 <= fu).
  { unfold fu. rewrite !app_length. cbn [List.length]. rewrite !app_length. cbn [List.length]. rewrite !app_length. cbn [List.length]. rewrite !app_length.
    assert (X : List.length steps <= List.length (List.concat blocks)); [|lia]. clear -HF. induction HF as [|s blk steps blocks Hs Hr IH]; [cbn; lia|]. cbn [List.concat]. rewrite app_length. destruct Hs. rewrite app_length. cbn [List.length]. lia. }
  assert (Fu : exists f0, fu = List.length steps + S f0) by (exists (fu - List.length steps - 1); lia). destruct Fu as [f0 ->].
  rewrite (outcar_runs energy a limit template n _ Ht steps blocks HF (S f0) 0 [] []) by lia.
  rewrite (outcar_cut_step energy a limit template n before h dashes rows between el f f0 _ _ _ cut rest B1 B2 B3 B4 B5 B6 Nr Eb ltac:(lia) Ht). reflexivity.
Qed.
(** Counts and time stamps are lines of one number: anything else is refused. *)
Theorem C130_time_line_refused : forall cell dt last a e limit memmap template junk h v rest,
  quiet has "TIMESTEP" junk -> has "TIMESTEP" h = true -> List.length (words v) <> 1 ->
  lammps (junk ++ h :: v :: rest) cell dt last a e limit memmap template = Crash.
Proof.
  intros cell dt last a e limit memmap template junk h v rest Q H N. unfold read_lammps. cbn [lammps_loop l_pos].
  rewrite (find_quiet has) by exact Q. rewrite (find_here has) by exact H. unfold value. destruct (words v) as [|w [|w' ws]]; [reflexivity|exfalso; apply N; reflexivity|reflexivity].
Qed.
Theorem C130_count_line_refused : forall cell dt last a e limit memmap template junk h v mid h2 c rest,
  quiet has "TIMESTEP" junk -> has "TIMESTEP" h = true -> quiet has "NUMBER OF ATOMS" (junk ++ h :: v :: mid) -> has "NUMBER OF ATOMS" h2 = true -> List.length (words c) <> 1 ->
  lammps (junk ++ h :: v :: mid ++ h2 :: c :: rest) cell dt last a e limit memmap template = Crash.
Proof.
  intros cell dt last a e limit memmap template junk h v mid h2 c rest Q H Q2 H2 N. unfold read_lammps. cbn [lammps_loop l_pos l_hdr].
  rewrite (find_quiet has) by exact Q. rewrite (find_here has) by exact H. destruct (value words num v) as [t|]; [|reflexivity]. cbn [need bind].
  assert (R : read_header has words num int inv (junk ++ h :: v :: mid ++ h2 :: c :: rest) cell = None).
  { unfold read_header. replace (junk ++ h :: v :: mid ++ h2 :: c :: rest) with ((junk ++ h :: v :: mid) ++ h2 :: c :: rest) by (rewrite <- app_assoc; reflexivity).
    rewrite (find_quiet has) by exact Q2. rewrite (find_here has) by exact H2. unfold count. destruct (words c) as [|w [|w' ws]]; [reflexivity|exfalso; apply N; reflexivity|reflexivity]. }
  rewrite R. reflexivity.
Qed.
(** A window without any step is an empty trajectory, but asking for its last steps is refused. *)
Theorem C130_empty_window_lammps : forall cell dt a e limit template file r m, lammps file cell dt None a e limit false template = Ok r -> c_data (lr_content r) = [] ->
  lammps file cell dt (Some m) a e limit false template = Crash.
Proof.
  intros cell dt a e limit template file r m E D. unfold read_lammps in *. destruct (lammps_loop _ _ _ _ _ _ _ _ _ _ _ _ _ _ _) as [st| | |]; try discriminate. cbn [bind cut_last] in *.
  destruct (l_hdr st); [|discriminate]. destruct (l_label st); [|discriminate]. destruct (kind _); try discriminate; injection E as <-; cbn [c_data lr_content] in D; rewrite D; reflexivity.
Qed.
Theorem C130_empty_window_xdatcar : forall dt a e limit template file c s m, read_xdatcar has words num int after_eq argsort file dt None a e limit false template = Ok (c, s) -> c_data c = [] ->
  read_xdatcar has words num int after_eq argsort file dt (Some m) a e limit false template = Crash.
Proof.
  intros dt a e limit template file c s m. unfold read_xdatcar.
  destruct file as [|l0 [|l1 [|l2 [|l3 [|l4 [|l5 [|l6 pos]]]]]]]; try discriminate.
  repeat match goal with |- bind (need ?x) _ = _ -> _ => destruct x; cbn [need bind]; try discriminate end.
  match goal with |- bind ?x _ = _ -> _ => destruct x as [st| | |] end; cbn [bind]; try discriminate.
  cbn [cut_last bind]. intros E D. injection E as <- <-. cbn [c_data] in D. rewrite D. reflexivity.
Qed.
Theorem C130_empty_window_outcar : forall nions potim energy a e limit template file c es m, read_outcar has words num argsort nions potim energy file None a e limit template = Ok (c, es) -> c_data c = [] ->
  read_outcar has words num argsort nions potim energy file (Some m) a e limit template = Crash.
Proof.
  intros nions potim energy a e limit template file c es m. unfold read_outcar.
  repeat match goal with |- bind (need ?x) _ = _ -> _ => destruct x; cbn [need bind]; try discriminate end.
  match goal with |- bind ?x _ = _ -> _ => destruct x as [st| | |] end; cbn [bind]; try discriminate.
  cbn [cut_last bind]. intros E D. injection E as <- <-. cbn [c_data] in D. rewrite D. reflexivity.
Qed.
End Statements.
Print Assumptions C130_lammps_partial.
Print Assumptions C130_lammps_refuted.
Print Assumptions C130_xdatcar.
Print Assumptions C130_outcar.
Print Assumptions C130_time_line_refused.
Print Assumptions C130_count_line_refused.
Print Assumptions C130_empty_window_lammps.
Print Assumptions C130_empty_window_xdatcar.
Print Assumptions C130_empty_window_outcar.

(** one complete step of a dump and the first nine lines of the next; an XDATCAR without its last line; an OUTCAR without its last energy *)
From Verif Require Import ParsersProps.
Example C130_nonvacuous :
  Forall2 (lammps_block w_has w_words w_num w_int 1 w_box (fun l => w_kind l = Positions)) [(0%R, [V3 1 0 1])] [w_block "0" "1"] /\
  lammps_block w_has w_words w_num w_int 1 w_box (fun l => w_kind l = Positions) (1%R, [V3 2 0 1]) (w_block "1" "2") /\
  beginning (firstn 9 (w_block "1" "2")) (w_block "1" "2") /\ beginning (firstn 5 (w_block "1" "2")) (w_block "1" "2").
Proof.
  split; [constructor; [apply w_block_ok; cbn; auto 6|constructor]|]. split; [apply w_block_ok; cbn; auto 6|].
  split; (eexists; split; [|split; [|cbn [firstn w_block]; reflexivity]]; discriminate).
Qed.
Example C130_witness_xdatcar : read_xdatcar w_has w_words w_num w_int w_eq w_argsort (firstn 10 w_xdatcar) 1 None 1 None 100 false None = Crash.
Proof. reflexivity. Qed.
Example C130_witness_outcar : read_outcar w_has w_words w_num w_argsort (fun l => match l with [_; w] => w_int w | _ => None end) w_energy w_energy (firstn 12 w_outcar) None 1 None 100 None = Crash.
Proof. reflexivity. Qed.
