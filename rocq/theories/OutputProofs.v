From Verif Require Import OutputModel OutputSpec.
From Coq Require Import List.
Open Scope R_scope.

(** * progress bar *)
Lemma around_mono x y : x <= y -> (around x <= around y)%Z.
Proof.
  intros H. destruct (Z_le_gt_dec (around x) (around y)) as [A|A]; [exact A|exfalso].
  assert (B := around_half x). assert (C := around_half y). assert (D : IZR (around y) + 1 <= IZR (around x)) by (rewrite <- plus_IZR; apply IZR_le; lia).
  assert (E : x = y) by lra. subst y. lia.
Qed.
Lemma around_30 x : 0 <= x <= 1 -> (0 <= around (30 * x) <= 30)%Z.
Proof.
  intros H. split.
  - apply Z.le_trans with (around (IZR 0)); [rewrite around_IZR; lia|apply around_mono; lra].
  - apply Z.le_trans with (around (IZR 30)); [apply around_mono; lra|rewrite around_IZR; lia].
Qed.
Definition clip (x : R) : R := Rmin 1 (Rmax 0 x).
Lemma clip_range x : 0 <= clip x <= 1.
Proof. unfold clip. split; [apply Rmin_glb; [lra|apply Rmax_l]|apply Rmin_l]. Qed.
Lemma clip_mono x y : x <= y -> clip x <= clip y.
Proof. intros H. unfold clip, Rmin, Rmax. repeat destruct (Rle_dec _ _); lra. Qed.
Definition num_value (p : pynum) : option R :=
  match p with PInt z => Some (clip (IZR z)) | PFloat x => Some (clip x) | PInf true => Some 1 | PInf false => Some 0 | PNan => None | POther => Some 0 end.
Lemma progress_bar_value p : match num_value p with
  | Some x => exists s, progress_bar p = Some (Z.to_nat (around (30 * x)), Z.to_nat (30 - around (30 * x)), x * 100, s)
  | None => progress_bar p = None end.
Proof.
  assert (V : forall x s, exists s', (let '(x, s) := if Rlt_dec x 0 then (0, SHalt) else (x, s) in
    let '(x, s) := if Rle_dec 1 x then (1, SDone) else (x, s) in Some (Z.to_nat (around (30 * x)), Z.to_nat (30 - around (30 * x)), x * 100, s)) =
    Some (Z.to_nat (around (30 * clip x)), Z.to_nat (30 - around (30 * clip x)), clip x * 100, s')).
  { intros x s. unfold clip, Rmin, Rmax. destruct (Rlt_dec x 0).
    - destruct (Rle_dec 1 0); [lra|]. destruct (Rle_dec 0 x); [lra|]. destruct (Rle_dec 1 0); [lra|]. eexists. reflexivity.
    - destruct (Rle_dec 0 x); [|lra]. destruct (Rle_dec 1 x); eexists; reflexivity. }
  destruct p as [z|x|[|]| |]; cbn [num_value]; unfold progress_bar; cbv beta zeta; try apply V; try (eexists; reflexivity); try reflexivity.
  destruct (V 0 SError) as [s E]. exists s. rewrite E. replace (clip 0) with 0; [reflexivity|]. unfold clip, Rmin, Rmax. repeat destruct (Rle_dec _ _); lra.
Qed.

(** * curve files *)
Open Scope string_scope.
Lemma app_nil_s s : s ++ "" = s. Proof. induction s as [|c s IH]; cbn; congruence. Qed.
Lemma app_assoc_s a b c : (a ++ b) ++ c = a ++ (b ++ c). Proof. induction a as [|x a IH]; cbn; congruence. Qed.
Lemma plain_fields f : plain f -> forall rest acc, read_fields (f ++ tab ++ rest) acc = (acc ++ f) :: read_fields rest "".
Proof.
  induction f as [|c f IH]; cbn [plain]; intros H rest acc.
  - cbn. rewrite app_nil_s. reflexivity.
  - destruct H as (A & B & H). cbn [String.append read_fields]. destruct (Ascii.eqb_spec c (Ascii.ascii_of_nat 9)) as [E|E]; [contradiction|].
    change (f ++ tab ++ rest)%string with (f ++ (tab ++ rest)). rewrite (IH H). f_equal. rewrite app_assoc_s. reflexivity.
Qed.
Fixpoint no_newline (s : string) : Prop := match s with EmptyString => True | String c s => c <> Ascii.ascii_of_nat 10 /\ no_newline s end.
Lemma no_newline_app a b : no_newline a -> no_newline b -> no_newline (a ++ b).
Proof. induction a as [|c a IH]; cbn; [tauto|]. intros [A B] C. split; [exact A|apply IH; assumption]. Qed.
Lemma plain_no_newline s : plain s -> no_newline s.
Proof. induction s as [|c s IH]; cbn; [tauto|]. intros (A & B & C). split; [exact B|apply IH, C]. Qed.
Lemma line_read l : no_newline l -> forall rest acc, read_lines (l ++ newline ++ rest) acc = (acc ++ l) :: read_lines rest "".
Proof.
  induction l as [|c l IH]; cbn [no_newline]; intros H rest acc.
  - cbn. rewrite app_nil_s. reflexivity.
  - destruct H as (A & H). cbn [String.append read_lines]. destruct (Ascii.eqb_spec c (Ascii.ascii_of_nat 10)) as [E|E]; [contradiction|].
    rewrite (IH H). f_equal. rewrite app_assoc_s. reflexivity.
Qed.
Section CurveFacts.
Context (ff fv : R -> string) (Pf : forall x, plain (ff x)) (Pv : forall x, plain (fv x)).
Definition values_text (row : list R) : string := fold_right (fun v s => (fv v ++ tab) ++ s) "" row.
Lemma values_no_newline row : no_newline (values_text row).
Proof. induction row as [|v row IH]; cbn; [exact I|]. apply no_newline_app; [apply no_newline_app; [apply plain_no_newline, Pv|cbn; split; [discriminate|exact I]]|exact IH]. Qed.
Lemma values_fields row : read_fields (values_text row) "" = map fv row.
Proof. induction row as [|v row IH]; [reflexivity|]. cbn [values_text fold_right map]. rewrite app_assoc_s, plain_fields by apply Pv. cbn [String.append]. f_equal. exact IH. Qed.
Lemma write_rows_read frequencies rows : (List.length rows <= List.length frequencies)%nat ->
  exists text, write_rows ff fv frequencies rows = Some text /\ read_table text = map (fun fr => ff (fst fr) :: map fv (snd fr)) (combine frequencies rows).
Proof.
  revert frequencies. induction rows as [|row rows IH]; intros frequencies H.
  - exists "". split; [reflexivity|]. destruct frequencies; reflexivity.
  - destruct frequencies as [|f frequencies]; [cbn in H; lia|]. destruct (IH frequencies) as (rest & E & R0); [cbn in H; lia|]. cbn [write_rows]. rewrite E. eexists. split; [reflexivity|].
    fold (values_text row). unfold read_table in *. cbn [combine map fst snd].
    replace ((ff f ++ tab) ++ values_text row ++ newline ++ rest) with (((ff f ++ tab) ++ values_text row) ++ newline ++ rest) by (rewrite !app_assoc_s; reflexivity).
    rewrite line_read.
    + cbn [map String.append]. f_equal; [|exact R0]. rewrite app_assoc_s. rewrite (plain_fields (ff f) (Pf f)). cbn [String.append]. f_equal. apply values_fields.
    + apply no_newline_app; [apply no_newline_app; [apply plain_no_newline, Pf|cbn; split; [discriminate|exact I]]|apply values_no_newline].
Qed.
Lemma write_rows_fail frequencies rows : (List.length frequencies < List.length rows)%nat -> write_rows ff fv frequencies rows = None.
Proof.
  revert frequencies. induction rows as [|row rows IH]; intros frequencies H; [cbn in H; lia|]. destruct frequencies as [|f frequencies]; [reflexivity|]. cbn [write_rows]. rewrite IH; [reflexivity|cbn in H; lia].
Qed.
End CurveFacts.
Open Scope R_scope.

(** * fitdata *)
Lemma column_some rows k c : rectangular k rows -> (c < k)%nat -> column rows c = Some (map (fun r => nth c r 0) rows).
Proof.
  intros H Hc. unfold column. replace (forallb _ rows) with true; [reflexivity|]. symmetry. apply forallb_forall. intros r Hr. rewrite (H r Hr). apply Nat.ltb_lt, Hc.
Qed.
Lemma add_lists_map {A} (f g : A -> R) l : add_lists (map f l) (map g l) = map (fun x => f x + g x) l.
Proof. induction l as [|x l IH]; cbn; congruence. Qed.
Lemma group_curve_value rows k group : rectangular k rows -> (forall c, In c group -> (c < k)%nat) ->
  group_curve rows group = Some (map (group_value group) rows).
Proof.
  intros H Hg. unfold group_curve.
  assert (G : forall todo (f : list R -> R), (forall c, In c todo -> (c < k)%nat) ->
    fold_left (fun acc c => match acc, column rows c with Some a, Some col => Some (add_lists a (map (fun v => v / INR (List.length group)) col)) | _, _ => None end) todo (Some (map f rows)) =
    Some (map (fun r => f r + sum_of (map (fun c => nth c r 0) todo) / INR (List.length group)) rows)).
  { induction todo as [|c todo IH]; intros f Ht; cbn [fold_left].
    - f_equal. apply map_ext. intros r. cbn. unfold Rdiv. ring.
    - rewrite (column_some rows k c H) by (apply Ht; left; reflexivity). rewrite map_map, (add_lists_map f (fun r => nth c r 0 / INR (List.length group))).
      rewrite IH by (intros c' Hc'; apply Ht; right; exact Hc'). f_equal. apply map_ext. intros r. cbn [map sum_of fold_right]. unfold sum_of, Rdiv. ring. }
  rewrite (G group (fun _ => 0) Hg). f_equal. apply map_ext. intros r. unfold group_value. ring.
Qed.
Lemma collect_map {A B} (f : A -> option B) (g : A -> B) l : (forall x, In x l -> f x = Some (g x)) -> collect (map f l) = Some (map g l).
Proof. induction l as [|x l IH]; intros H; cbn; [reflexivity|]. rewrite (H x (or_introl eq_refl)), IH; [reflexivity|]. intros y Hy. apply H. right. exact Hy. Qed.
Lemma fitdata_rows rows k groups : rectangular k rows -> (0 < k)%nat -> rows <> [] -> (forall g, In g groups -> forall c, In c g -> (c < k)%nat) ->
  match column rows 0, collect (map (group_curve rows) groups) with Some f, Some c => Some (f, c) | _, _ => None end =
  Some (map (fun r => nth 0 r 0) rows, map (fun g => map (group_value g) rows) groups).
Proof.
  intros H Hk Hr Hg. rewrite (column_some rows k 0 H Hk), (collect_map _ (fun g => map (group_value g) rows)); [reflexivity|]. intros g Hin. apply (group_curve_value rows k); [exact H|exact (Hg g Hin)].
Qed.

(** * tensors *)
Ltac mx := cbv [outer mmul vmul mulv vscale vadd mT madd mscale mdiag vdot vx vy vz r0 r1 r2].
Lemma congruence_outer a u : mmul (mmul (mT a) (outer u)) a = outer (vmul u a).
Proof. destruct a as [[] [] []], u. mx. f_equal; f_equal; ring. Qed.
Lemma congruence_add a m1 m2 : mmul (mmul (mT a) (madd m1 m2)) a = madd (mmul (mmul (mT a) m1) a) (mmul (mmul (mT a) m2) a).
Proof. destruct a as [[] [] []], m1 as [[] [] []], m2 as [[] [] []]. mx. f_equal; f_equal; ring. Qed.
Lemma congruence_scale a k m : mmul (mmul (mT a) (mscale k m)) a = mscale k (mmul (mmul (mT a) m) a).
Proof. destruct a as [[] [] []], m as [[] [] []]. mx. f_equal; f_equal; ring. Qed.
Lemma congruence_zero a : mmul (mmul (mT a) (mdiag 0 0 0)) a = mdiag 0 0 0.
Proof. destruct a as [[] [] []]. mx. f_equal; f_equal; ring. Qed.
Lemma congruence_moment a samples : mmul (mmul (mT a) (second_moment samples)) a = second_moment (map (fun s => (fst s, vmul (snd s) a)) samples).
Proof.
  unfold second_moment. induction samples as [|[w u] l IH]; cbn [map msum fold_right fst snd]; [apply congruence_zero|].
  unfold msum in *. rewrite congruence_add, congruence_scale, congruence_outer. f_equal. exact IH.
Qed.
Lemma mT_mmul a b : mT (mmul a b) = mmul (mT b) (mT a).
Proof. destruct a as [[] [] []], b as [[] [] []]. mx. f_equal; f_equal; ring. Qed.
Lemma mT_mT a : mT (mT a) = a. Proof. destruct a as [[] [] []]. reflexivity. Qed.
Lemma mmul_assoc' a b c : mmul (mmul a b) c = mmul a (mmul b c).
Proof. destruct a as [[] [] []], b as [[] [] []], c as [[] [] []]. mx. f_equal; f_equal; ring. Qed.
Lemma mmul_id_l' a : mmul mid a = a. Proof. destruct a as [[] [] []]. cbv [mid]. mx. f_equal; f_equal; ring. Qed.
Lemma mmul_id_r' a : mmul a mid = a. Proof. destruct a as [[] [] []]. cbv [mid]. mx. f_equal; f_equal; ring. Qed.
Lemma mT_mid : mT mid = mid. Proof. reflexivity. Qed.
Lemma mT_mdiag a b c : mT (mdiag a b c) = mdiag a b c. Proof. reflexivity. Qed.
Lemma congruence_symmetric a u : symmetric u -> symmetric (mmul (mmul (mT a) u) a).
Proof. unfold symmetric. intros H. rewrite !mT_mmul, mT_mT, H. rewrite mmul_assoc'. reflexivity. Qed.
Lemma congruence_positive a u : positive_form u -> positive_form (mmul (mmul (mT a) u) a).
Proof.
  intros H v. assert (E : vdot v (mulv (mmul (mmul (mT a) u) a) v) = vdot (mulv a v) (mulv u (mulv a v))).
  { destruct a as [[] [] []], u as [[] [] []], v. mx. ring. }
  rewrite E. apply H.
Qed.

(** * LAMMPS *)
Section LammpsFacts.
Context {X : Type} (d : X).
Lemma gather_length (s : list (nat * X)) : List.length (gather d s) = List.length s. Proof. apply map_length. Qed.
Lemma gather_at (s : list (nat * X)) k i : ids_ok s -> nth_error (map fst s) k = Some i ->
  exists j x, nth_error s (i - 1) = Some (j, x) /\ nth_error (gather d s) k = Some x.
Proof.
  intros H E. assert (B : (1 <= i <= List.length s)%nat) by (apply H, (nth_error_In _ k), E).
  destruct (nth_error s (i - 1)) as [[j x]|] eqn:F; [|apply nth_error_None in F; lia]. exists j, x. split; [reflexivity|].
  unfold gather. rewrite nth_error_map in E. destruct (nth_error s k) as [[i' y]|] eqn:G; [|discriminate]. cbn in E. injection E as ->.
  rewrite nth_error_map, G. cbn [option_map fst]. f_equal. erewrite nth_error_nth; [reflexivity|]. rewrite nth_error_map, F. reflexivity.
Qed.
End LammpsFacts.
Lemma unique_owner {X} (s : list (nat * X)) a b x : NoDup (map snd s) -> In (a, x) s -> In (b, x) s -> a = b.
Proof.
  induction s as [|[i y] s IH]; [contradiction|]. cbn. intros ND A B. inversion ND as [|? ? N1 N2]; subst.
  assert (K : forall c z, In (c, z) s -> In z (map snd s)) by (intros c z H; apply in_map_iff; exists (c, z); split; [reflexivity|exact H]).
  destruct A as [A|A], B as [B|B].
  - congruence.
  - injection A as -> ->. exfalso. apply N1, (K b), B.
  - injection B as -> ->. exfalso. apply N1, (K a), A.
  - apply IH; assumption.
Qed.
