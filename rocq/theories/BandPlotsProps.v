(** C133: the figures of the renormalized dispersion relations show the numbers of their titles. *)
From Coq Require Import Reals List String Arith Lra Lia ZArith.
From Verif Require Import BandsModel BandsSpec BandsProps BandPlotsModel.
Import ListNotations.
Open Scope R_scope.

(** a table of nb branches over the same np points *)
Definition table_of (nb np : nat) (l : list (list R)) : Prop := List.length l = nb /\ forall row, In row l -> List.length row = np.
(** one stretch with all its quantities, for nb branches *)
Definition complete_entry (nb : nat) (e : entry) : Prop :=
  table_of nb (List.length (e_distances e)) (e_harmonic e) /\ table_of nb (List.length (e_distances e)) (e_renormalized e) /\
  table_of nb (List.length (e_distances e)) (e_shifts e) /\ exists w, e_linewidth e = Some w /\ table_of nb (List.length (e_distances e)) w.
(** the quantity named by the title of figure k *)
Definition titled (k : nat) (e : entry) : list (list R) :=
  match k with 0%nat => match e_linewidth e with Some w => w | None => [] end | 1%nat => e_harmonic e | 2%nat => e_shifts e | _ => e_renormalized e end.
(** what the words of a title promise *)
Definition named (title : string) (e : entry) : list (list R) :=
  if String.eqb title "Phonon linewidths" then match e_linewidth e with Some w => w | None => [] end
  else if String.eqb title "Harmonic phonon dispersion relations" then e_harmonic e
  else if String.eqb title "Frequency shifts" then e_shifts e
  else if String.eqb title "Renormalized phonon dispersion relations" then e_renormalized e else [].

Lemma all_of_some {A} (l : list A) : all_of (map Some l) = Some l.
Proof. induction l as [|x l IH]; [reflexivity|]. cbn. rewrite IH. reflexivity. Qed.
Lemma colour_mod colors j : colors <> [] -> colour_of colors j = nth (j mod List.length colors) colors EmptyString.
Proof.
  intros H. unfold colour_of, roll. destruct colors as [|c l]; [congruence|]. set (n := List.length (c :: l)).
  change (seq 0 n) with (0%nat :: seq 1 (List.length l)). cbn [map nth]. f_equal. rewrite Z.sub_0_l, Z.opp_involutive, <- Nat2Z.inj_mod. rewrite Nat2Z.id. reflexivity.
Qed.
Lemma table_nth nb np l j : table_of nb np l -> (j < nb)%nat -> exists row, nth_error l j = Some row /\ List.length row = np /\ nth j l [] = row.
Proof.
  intros (L & H) Hj. destruct (nth_error l j) as [row|] eqn:E.
  - exists row. split; [reflexivity|]. split; [apply H, (nth_error_In _ _ E)|]. apply nth_error_nth. exact E.
  - apply nth_error_None in E. lia.
Qed.
Definition drawn (colors : list string) (e : entry) (j k : nat) : curve :=
  MkC k (nth (j mod List.length colors) colors EmptyString) "linewidth" (e_distances e) (nth j (titled k e) []).
Lemma branch_curves_some colors nb e j : colors <> [] -> complete_entry nb e -> (j < nb)%nat ->
  branch_curves colors e j = Some (map (drawn colors e j) [0; 1; 2; 3]%nat).
Proof.
  intros Hc (H1 & H2 & H3 & w & Hw & H0) Hj. unfold branch_curves. rewrite Hw.
  destruct (table_nth _ _ _ _ H0 Hj) as (r0 & E0 & L0 & N0). destruct (table_nth _ _ _ _ H1 Hj) as (r1 & E1 & L1 & N1).
  destruct (table_nth _ _ _ _ H2 Hj) as (r2 & E2 & L2 & N2). destruct (table_nth _ _ _ _ H3 Hj) as (r3 & E3 & L3 & N3).
  rewrite E0, E1, E2, E3. unfold plot. rewrite L0, L1, L2, L3, Nat.eqb_refl. cbn [all_of map]. unfold drawn, titled. rewrite Hw, N0, N1, N2, N3, (colour_mod _ _ Hc). reflexivity.
Qed.

Lemma filter_app_curves {A} (p : A -> bool) l : forall l', filter p (l ++ l') = filter p l ++ filter p l'.
Proof. induction l as [|x l IH]; intros l'; [reflexivity|]. cbn. rewrite IH. destruct (p x); reflexivity. Qed.

(** every figure has, for every stretch in order and every branch in order, one curve: the quantity of its title over the distances of the
    stretch; nothing else is drawn; the colour depends on the branch alone, so a branch keeps it along the path and in the four figures *)
Theorem C133_figures : forall colors data nb, colors <> [] -> data <> [] -> (forall e, In e data -> complete_entry nb e) ->
  exists curves, plot_linewidths_and_shifts_bands colors data = Some curves /\ (forall c, In c curves -> (c_figure c < 4)%nat) /\
  List.length titles = 4%nat /\ (forall k t e, nth_error titles k = Some t -> titled k e = named t e) /\
  forall k, (k < 4)%nat -> filter (fun c => Nat.eqb (c_figure c) k) curves = flat_map (fun e => map (fun j => drawn colors e j k) (seq 0 nb)) data.
Proof.
  intros colors data nb Hc Hd Hw.
  assert (Hb : forall l, (forall e, In e l -> complete_entry nb e) -> flat_map (fun path => map (branch_curves colors path) (seq 0 nb)) l =
     map Some (flat_map (fun e => map (fun j => map (drawn colors e j) [0; 1; 2; 3]%nat) (seq 0 nb)) l)).
  { induction l as [|e l IH]; intros H; [reflexivity|]. cbn [flat_map]. rewrite map_app, IH by (intros; apply H; right; assumption). f_equal. rewrite map_map.
    apply map_ext_in. intros j Hj. apply in_seq in Hj. apply (branch_curves_some colors nb); [exact Hc|apply H; left; reflexivity|lia]. }
  assert (Hl : plot_linewidths_and_shifts_bands colors data = Some (List.concat (flat_map (fun e => map (fun j => map (drawn colors e j) [0; 1; 2; 3]%nat) (seq 0 nb)) data))).
  { unfold plot_linewidths_and_shifts_bands. destruct data as [|first data]; [congruence|]. destruct (Hw first (or_introl eq_refl)) as (_ & _ & _ & w & Ew & (Lw & _)).
    rewrite Ew, Lw, Hb by exact Hw. rewrite all_of_some. reflexivity. }
  eexists. split; [exact Hl|]. split.
  - intros c H. apply in_concat in H as (l & Hl1 & H). apply in_flat_map in Hl1 as (e & _ & Hl2). apply in_map_iff in Hl2 as (j & <- & _). apply in_map_iff in H as (k & <- & Hk).
    cbn in Hk |- *. lia.
  - split; [reflexivity|]. split; [intros [|[|[|[|k]]]] t e Ht; cbn in Ht; try (destruct k; discriminate); injection Ht as <-; reflexivity|].
    intros k Hk. clear Hb Hl Hd Hw. induction data as [|e data IH]; [reflexivity|]. cbn [flat_map]. rewrite concat_app, filter_app_curves, IH. f_equal.
    generalize (seq 0 nb). intros s. induction s as [|j s IHs]; [reflexivity|]. rewrite !map_cons, concat_cons, filter_app_curves, IHs. cbn [map filter app c_figure drawn].
    destruct k as [|[|[|[|]]]]; cbn; try reflexivity. lia.
Qed.

(** the quantities drawn, from the arrays: at point q of branch j the shift is the renormalized minus the harmonic frequency and the linewidth the
    difference of the two limits; entries of a complete result are complete *)
Theorem C133_quantities : forall m (point FC : Type) (dispersion : option FC -> bool -> list segment) rfc fr lw (ranges : list (point * point)) labels ic bc out,
  (forall fc, List.length (dispersion fc bc) = List.length ranges) -> (forall l, labels = Some l -> List.length l = List.length ranges) ->
  get_renormalized_phonon_dispersion_bands m dispersion rfc fr lw ranges labels true ic bc = Some out -> forall d nb np, In d out ->
  complete_entry nb (entry_of nb np d) /\ e_labels (entry_of nb np d) = labels_of d /\
  forall j q, (j < nb)%nat -> (q < np)%nat ->
    nth q (e_distances (entry_of nb np d)) 0 = q_path_distances d q /\
    nth q (nth j (titled 1 (entry_of nb np d)) []) 0 = harmonic_frequencies d j q /\
    nth q (nth j (titled 3 (entry_of nb np d)) []) 0 = renormalized_frequencies d j q /\
    nth q (nth j (titled 2 (entry_of nb np d)) []) 0 = renormalized_frequencies d j q - harmonic_frequencies d j q /\
    exists plus minus, linewidth_plus d = Some plus /\ linewidth_minus d = Some minus /\ nth q (nth j (titled 0 (entry_of nb np d)) []) 0 = plus j q - minus j q.
Proof.
  intros m point FC dispersion rfc fr lw ranges labels ic bc out Hd Hl H d nb np Hin.
  destruct (C77_entries m point FC dispersion rfc fr lw ranges labels true ic bc Hd Hl) as (out' & H' & _ & HH). rewrite H in H'. injection H' as <-.
  apply In_nth_error in Hin as (i & Hi). destruct (HH i d Hi) as (_ & _ & _ & _ & Hs & Hw & _). destruct (Hw eq_refl) as (plus & minus & width & Ep & Em & Ew & Hwd).
  assert (T : forall f, table_of nb np (tolist nb np f)). { intros f. split; [unfold tolist; rewrite map_length; apply seq_length|]. intros row Hr. apply in_map_iff in Hr as (b & <- & _). rewrite map_length. apply seq_length. }
  assert (V : forall f j q, (j < nb)%nat -> (q < np)%nat -> nth q (nth j (tolist nb np f) []) 0 = f j q).
  { intros f j q Hj Hq. unfold tolist. rewrite nth_indep with (d' := (fun b => map (f b) (seq 0 np)) 0%nat) by (rewrite map_length, seq_length; exact Hj).
    rewrite (map_nth (fun b => map (f b) (seq 0 np))), seq_nth by exact Hj.
    rewrite Nat.add_0_l. rewrite nth_indep with (d' := f j 0%nat) by (rewrite map_length, seq_length; exact Hq). rewrite (map_nth (f j)), seq_nth by exact Hq. reflexivity. }
  split; [|split; [reflexivity|]].
  - unfold complete_entry, entry_of. cbn [e_distances e_harmonic e_renormalized e_shifts e_linewidth]. rewrite map_length, seq_length, Ew.
    repeat split; try apply T. eexists. split; [reflexivity|]. apply T.
  - intros j q Hj Hq. unfold titled, entry_of. cbn [e_distances e_harmonic e_renormalized e_shifts e_linewidth]. rewrite Ew. cbn [option_map]. rewrite !V by assumption. split.
    { rewrite nth_indep with (d' := q_path_distances d 0%nat) by (rewrite map_length, seq_length; exact Hq). rewrite (map_nth (q_path_distances d)), seq_nth by exact Hq. reflexivity. }
    split; [reflexivity|]. split; [reflexivity|]. split; [apply Hs|]. exists plus, minus. split; [exact Ep|]. split; [exact Em|]. apply Hwd.
Qed.

(** the other figure: the red curves are the renormalized frequencies and the blue ones (when wanted) the harmonic ones *)
Definition red (e : entry) : list curve := map (MkC 0 "r" "Renormalized" (e_distances e)) (e_renormalized e).
Definition blue (e : entry) : list curve := map (MkC 0 "b" "Harmonic" (e_distances e)) (e_harmonic e).
Lemma map_plot c lab x np l : table_of np (List.length x) l -> map (plot 0 c lab x) l = map Some (map (MkC 0 c lab x) l).
Proof. intros (_ & H). rewrite map_map. apply map_ext_in. intros row Hr. unfold plot. rewrite (H row Hr), Nat.eqb_refl. reflexivity. Qed.
Lemma stretch_curves_some h nb e : complete_entry nb e -> stretch_curves h e = Some (red e ++ if h then blue e else []).
Proof.
  intros (H1 & H2 & _). unfold stretch_curves. rewrite (map_plot _ _ _ _ _ H2). destruct h.
  - rewrite (map_plot _ _ _ _ _ H1), <- map_app. apply all_of_some.
  - rewrite !app_nil_r. apply all_of_some.
Qed.
(** the shaded band of a branch: over the same distances, from half the linewidth below the frequency to half of it above *)
Definition around (freq width : list R) (r : ribbon) (x : list R) : Prop :=
  r_x r = x /\ List.length (r_above r) = List.length x /\ List.length (r_below r) = List.length x /\
  forall q, (q < List.length x)%nat -> (nth q (r_above r) 0 + nth q (r_below r) 0) / 2 = nth q freq 0 /\ nth q (r_above r) 0 - nth q (r_below r) 0 = nth q width 0.
Lemma ribbon_around x freq width : List.length freq = List.length x -> List.length width = List.length x -> exists r, ribbon_of x freq width = Some r /\ around freq width r x.
Proof.
  intros Hf Hw. unfold ribbon_of. rewrite Hf, Hw, Nat.eqb_refl. cbn [andb]. eexists. split; [reflexivity|]. unfold around. cbn [r_x r_above r_below]. rewrite !map_length, combine_length, Hf, Hw, Nat.min_id.
  split; [reflexivity|]. split; [reflexivity|]. split; [reflexivity|]. intros q Hq.
  assert (E : forall g : R * R -> R, nth q (map g (combine freq width)) 0 = g (nth q freq 0, nth q width 0)).
  { intros g. rewrite nth_indep with (d' := g (0, 0)) by (rewrite map_length, combine_length; lia). rewrite map_nth, combine_nth by congruence. reflexivity. }
  rewrite !E. cbn [fst snd]. split; lra.
Qed.
Lemma ribbons_some nb e w : e_linewidth e = Some w -> complete_entry nb e -> exists rs, stretch_ribbons true e = Some rs /\ List.length rs = nb /\
  forall j r, nth_error rs j = Some r -> around (nth j (e_renormalized e) []) (nth j w []) r (e_distances e).
Proof.
  intros Ew (_ & (L2 & H2) & _ & w' & Ew' & (L0 & H0)). rewrite Ew in Ew'. injection Ew' as <-. unfold stretch_ribbons. rewrite Ew.
  assert (G : forall f w nb, List.length f = nb -> List.length w = nb -> (forall row, In row f -> List.length row = List.length (e_distances e)) -> (forall row, In row w -> List.length row = List.length (e_distances e)) ->
     exists rs, all_of (map (fun p => ribbon_of (e_distances e) (fst p) (snd p)) (combine f w)) = Some rs /\ List.length rs = nb /\
     forall j r, nth_error rs j = Some r -> around (nth j f []) (nth j w []) r (e_distances e)).
  { clear. induction f as [|a f IH]; intros [|b w] nb Lf Lw Hf Hw; cbn in Lf, Lw; subst nb; try discriminate.
    - exists []. split; [reflexivity|]. split; [reflexivity|]. intros [|]; discriminate.
    - injection Lw as Lw. destruct (IH w (List.length f) eq_refl Lw) as (rs & E & L & H); [intros; apply Hf; right; assumption|intros; apply Hw; right; assumption|].
      destruct (ribbon_around (e_distances e) a b) as (r0 & E0 & H0); [apply Hf; left; reflexivity|apply Hw; left; reflexivity|].
      exists (r0 :: rs). cbn. rewrite E0, E. split; [reflexivity|]. split; [cbn; congruence|]. intros [|j] r Hr; [injection Hr as <-; exact H0|]. apply (H j r Hr). }
  apply (G _ _ nb L2 L0 H2 H0).
Qed.
Lemma all_of_map {A B} (f : A -> option B) (g : A -> B) l : (forall x, In x l -> f x = Some (g x)) -> all_of (map f l) = Some (map g l).
Proof. induction l as [|x l IH]; intros H; [reflexivity|]. cbn. rewrite (H x (or_introl eq_refl)), IH by (intros; apply H; right; assumption). reflexivity. Qed.
Theorem C133_dispersion : forall data nb h lw, data <> [] -> (forall e, In e data -> complete_entry nb e) ->
  exists ribbons, plot_renormalized_phonon_dispersion_bands lw h data = Some (flat_map (fun e => red e ++ if h then blue e else []) data, ribbons) /\ (lw = false -> ribbons = []) /\
  (lw = true -> List.length ribbons = (nb * List.length data)%nat /\
    forall i j e w, nth_error data i = Some e -> e_linewidth e = Some w -> (j < nb)%nat ->
      exists r, nth_error ribbons (i * nb + j) = Some r /\ around (nth j (e_renormalized e) []) (nth j w []) r (e_distances e)).
Proof.
  intros data nb h lw _ Hw. unfold plot_renormalized_phonon_dispersion_bands.
  rewrite (all_of_map (stretch_curves h) (fun e => red e ++ if h then blue e else []) data) by (intros e He; apply (stretch_curves_some h nb), Hw, He). rewrite <- flat_map_concat_map.
  destruct lw.
  - assert (G : exists rs, all_of (map (stretch_ribbons true) data) = Some rs /\ List.length (List.concat rs) = (nb * List.length data)%nat /\
      forall i j e w, nth_error data i = Some e -> e_linewidth e = Some w -> (j < nb)%nat ->
      exists r, nth_error (List.concat rs) (i * nb + j) = Some r /\ around (nth j (e_renormalized e) []) (nth j w []) r (e_distances e)).
    { induction data as [|e data IH].
      - exists []. split; [reflexivity|]. split; [cbn; lia|]. intros [|]; discriminate.
      - destruct IH as (rs & E & L & H); [intros; apply Hw; right; assumption|]. assert (He := Hw e (or_introl eq_refl)). destruct He as (He1 & He2 & He3 & w & Ew & Hw0) eqn:X. clear X.
        destruct (ribbons_some nb e w Ew (conj He1 (conj He2 (conj He3 (ex_intro _ w (conj Ew Hw0)))))) as (r0 & E0 & L0 & H0).
        exists (r0 :: rs). cbn [map all_of]. rewrite E0, E. split; [reflexivity|]. cbn [List.concat List.length]. split; [rewrite app_length; lia|]. intros [|i] j e' w' Hi Ew' Hj.
        + cbn in Hi. injection Hi as <-. rewrite Ew in Ew'. injection Ew' as <-. destruct (nth_error r0 j) as [r|] eqn:Er; [|apply nth_error_None in Er; lia].
          exists r. split; [cbn; rewrite nth_error_app1 by lia; exact Er|]. apply (H0 j r Er).
        + cbn in Hi. destruct (H i j e' w' Hi Ew' Hj) as (r & Er & Hr). exists r. split; [|exact Hr]. rewrite nth_error_app2 by (rewrite L0; lia). rewrite <- Er. f_equal. rewrite L0. lia. }
    destruct G as (rs & E & L & H). rewrite E. eexists. split; [reflexivity|]. split; [discriminate|]. intros _. split; [exact L|exact H].
  - rewrite (all_of_map (stretch_ribbons false) (fun _ => []) data) by reflexivity. eexists. split; [reflexivity|]. split; [|discriminate]. intros _. clear. induction data; [reflexivity|assumption].
Qed.
(** the legend names a harmonic and a renormalized curve by their names *)
Theorem C133_legend : forall data nb lw, data <> [] -> (0 < nb)%nat -> (forall e, In e data -> complete_entry nb e) ->
  exists curves ribbons harmonic renormalized, plot_renormalized_phonon_dispersion_bands lw true data = Some (curves, ribbons) /\
  legend curves = [(harmonic, "Harmonic"); (renormalized, "Renormalized")]%string /\
  (exists e, In e data /\ In harmonic (blue e)) /\ (exists e, In e data /\ In renormalized (red e)).
Proof.
  intros data nb lw Hd Hn Hw. destruct (C133_dispersion data nb true lw Hd Hw) as (ribbons & E & _). rewrite E.
  set (F := fun e => red e ++ blue e). change (flat_map _ data) with (flat_map F data).
  destruct data as [|first data]; [congruence|]. destruct (Hw first (or_introl eq_refl)) as (_ & (L2 & _) & _).
  destruct (e_renormalized first) as [|a l] eqn:Ea; [cbn in L2; lia|].
  destruct (exists_last Hd) as (front & final & Ef). assert (Hfin : In final (first :: data)) by (rewrite Ef; apply in_or_app; right; left; reflexivity).
  destruct (Hw final Hfin) as ((L1 & _) & _). assert (Hb : e_harmonic final <> []) by (intros X; rewrite X in L1; cbn in L1; lia). destruct (exists_last Hb) as (bf & bl & Eb).
  exists (flat_map F (first :: data)), ribbons, (MkC 0 "b" "Harmonic" (e_distances final) bl), (MkC 0 "r" "Renormalized" (e_distances first) a). split; [reflexivity|]. split; [|split].
  - unfold legend. assert (R1 : exists r, rev (flat_map F (first :: data)) = MkC 0 "b" "Harmonic" (e_distances final) bl :: r).
    { rewrite Ef, flat_map_app. cbn [flat_map]. unfold F at 2, blue. rewrite Eb, map_app, app_nil_r. cbn [map]. rewrite !app_assoc. rewrite rev_app_distr. eexists. reflexivity. }
    destruct R1 as (r & ->). unfold F, red. cbn [flat_map]. rewrite Ea. reflexivity.
  - exists final. split; [exact Hfin|]. unfold blue. apply in_map. rewrite Eb. apply in_or_app. right. left. reflexivity.
  - exists first. split; [left; reflexivity|]. unfold red. apply in_map. rewrite Ea. left. reflexivity.
Qed.

(** distances that start at 0 and never go back along the whole path: everything drawn is between the limits of the abscissa *)
Theorem C133_range : forall data hi, x_limits data = Some hi -> (forall e, In e data -> e_distances e <> []) ->
  (forall i j, (i <= j < List.length (flat_map e_distances data))%nat -> nth i (flat_map e_distances data) 0 <= nth j (flat_map e_distances data) 0) ->
  nth 0 (flat_map e_distances data) 0 = 0 -> forall e x, In e data -> In x (e_distances e) -> fst hi <= x <= snd hi.
Proof.
  intros data hi Hx He Hm H0 e x Hin Hxin. unfold x_limits in Hx. assert (Hd : data <> []) by (intros ->; discriminate). destruct (exists_last Hd) as (front & final & Ef).
  rewrite Ef, rev_app_distr in Hx. cbn [rev app] in Hx. assert (Hfin : In final data) by (rewrite Ef; apply in_or_app; right; left; reflexivity).
  destruct (exists_last (He final Hfin)) as (df & dl & Edl). rewrite Edl, rev_app_distr in Hx. cbn [rev app] in Hx. injection Hx as <-. cbn [fst snd].
  set (X := flat_map e_distances data) in *. assert (HX : In x X) by (apply in_flat_map; exists e; split; assumption). destruct (In_nth X x 0 HX) as (i & Hi & <-).
  assert (Elast : nth (List.length X - 1) X 0 = dl /\ (0 < List.length X)%nat).
  { unfold X. rewrite Ef, flat_map_app. cbn [flat_map]. rewrite Edl, app_nil_r, app_assoc, app_length. cbn [List.length]. split; [|lia]. rewrite app_nth2 by lia. rewrite Nat.add_sub, Nat.sub_diag. reflexivity. }
  destruct Elast as (El & Hl). assert (H1 := Hm 0%nat i ltac:(lia)). assert (H2 := Hm i (List.length X - 1)%nat ltac:(lia)). rewrite El in H2. rewrite H0 in H1. split; assumption.
Qed.
(** the ticks: names as in C79 from the names of the stretches, at the starts of the stretches and at the end *)
Theorem C133_ticks : forall show data labels names, data <> [] -> (forall e, In e data -> e_distances e <> []) -> map e_labels data = map Some labels -> tick_labels show labels = Some names ->
  exists x hi, ticks show data = Some (x, names) /\ x_limits data = Some hi /\ List.length x = S (List.length data) /\ (forall k e, nth_error data k = Some e -> nth k x 0 = nth 0 (e_distances e) 0) /\ nth (List.length data) x 0 = snd hi.
Proof.
  intros show data labels names Hd He El En. unfold ticks. rewrite El, all_of_some.
  rewrite (all_of_map (fun e => nth_error (e_distances e) 0) (fun e => nth 0 (e_distances e) 0) data).
  2:{ intros e H. specialize (He e H). destruct (e_distances e); [congruence|reflexivity]. }
  assert (X : exists a, x_limits data = Some (0, a)).
  { unfold x_limits. destruct (exists_last Hd) as (front & final & Ef). assert (Hfin : In final data) by (rewrite Ef; apply in_or_app; right; left; reflexivity).
    rewrite Ef, rev_app_distr. cbn [rev app]. destruct (exists_last (He final Hfin)) as (df & dl & Edl). rewrite Edl, rev_app_distr. eexists. reflexivity. }
  destruct X as (a & ->). rewrite En. cbn [option_map]. do 2 eexists. split; [reflexivity|]. split; [reflexivity|]. rewrite app_length, map_length. cbn [List.length snd]. split; [lia|]. split.
  - intros k e Hk. assert (Hl : (k < List.length data)%nat) by (apply nth_error_Some; congruence). rewrite app_nth1 by (rewrite map_length; exact Hl).
    rewrite nth_indep with (d' := (fun e => nth 0 (e_distances e) 0) e) by (rewrite map_length; exact Hl). rewrite (map_nth (fun e => nth 0 (e_distances e) 0)), (nth_error_nth _ _ _ Hk). reflexivity.
  - rewrite app_nth2 by (rewrite map_length; lia). rewrite map_length, Nat.sub_diag. reflexivity.
Qed.

(** the scatter plot has exactly the pairs (frequency, linewidth) of the same mesh point and branch, each once *)
Theorem C133_scatter : forall frequencies linewidths nq nb, (0 < nq)%nat -> table_of nq nb frequencies -> table_of nq nb linewidths ->
  List.length (plot_frequencies_vs_linewidths frequencies linewidths) = (nq * nb)%nat /\
  forall q b, (q < nq)%nat -> (b < nb)%nat -> nth_error (plot_frequencies_vs_linewidths frequencies linewidths) (b * nq + q) = Some (nth b (nth q frequencies []) 0, nth b (nth q linewidths []) 0).
Proof.
  intros f l nq nb Hq (Lf & Hf) (Ll & Hl). unfold plot_frequencies_vs_linewidths.
  assert (Cf : columns_of f = nb) by (destruct f; [cbn in Lf; lia|apply Hf; left; reflexivity]). assert (Cl : columns_of l = nb) by (destruct l; [cbn in Ll; lia|apply Hl; left; reflexivity]).
  rewrite Cf, Cl. unfold transpose. set (col := fun (t : list (list R)) b => map (fun row => nth b row 0) t).
  assert (E : forall s, combine (map (col f) s) (map (col l) s) = map (fun b => (col f b, col l b)) s) by (induction s as [|b s IH]; [reflexivity|cbn [map combine]; rewrite IH; reflexivity]).
  change (List.length (flat_map (fun fl => combine (fst fl) (snd fl)) (combine (map (col f) (seq 0 nb)) (map (col l) (seq 0 nb)))) = (nq * nb)%nat /\
    forall q b, (q < nq)%nat -> (b < nb)%nat -> nth_error (flat_map (fun fl => combine (fst fl) (snd fl)) (combine (map (col f) (seq 0 nb)) (map (col l) (seq 0 nb)))) (b * nq + q) = Some (nth b (nth q f []) 0, nth b (nth q l []) 0)).
  rewrite E.
  assert (G : forall n s, List.length (flat_map (fun fl => combine (fst fl) (snd fl)) (map (fun b => (col f b, col l b)) (seq s n))) = (nq * n)%nat /\
    forall q b, (q < nq)%nat -> (b < n)%nat -> nth_error (flat_map (fun fl => combine (fst fl) (snd fl)) (map (fun b => (col f b, col l b)) (seq s n))) (b * nq + q) = Some (nth (s + b) (nth q f []) 0, nth (s + b) (nth q l []) 0)).
  { induction n as [|n IH]; intros s; [split; [cbn; lia|intros; lia]|]. destruct (IH (S s)) as (L & H). cbn [seq map flat_map fst snd].
    assert (Lc : List.length (combine (col f s) (col l s)) = nq) by (rewrite combine_length; unfold col; rewrite !map_length; lia).
    split; [rewrite app_length, L, Lc; lia|]. intros q [|b] Hq' Hb.
    - cbn [Nat.mul Nat.add]. rewrite nth_error_app1 by lia. rewrite Nat.add_0_r, (nth_error_nth' _ (0, 0)) by lia. rewrite combine_nth by (unfold col; rewrite !map_length; lia).
      f_equal. unfold col. f_equal.
      + rewrite nth_indep with (d' := (fun row => nth s row 0) []) by (rewrite map_length; lia). rewrite (map_nth (fun row => nth s row 0)). reflexivity.
      + rewrite nth_indep with (d' := (fun row => nth s row 0) []) by (rewrite map_length; lia). rewrite (map_nth (fun row => nth s row 0)). reflexivity.
    - rewrite nth_error_app2 by (rewrite Lc; lia). rewrite Lc. replace (S b * nq + q - nq)%nat with (b * nq + q)%nat by lia. rewrite H by lia. replace (S s + b)%nat with (s + S b)%nat by lia. reflexivity. }
  destruct (G nb 0%nat) as (L & H). split; [exact L|]. intros q b Hq' Hb. apply (H q b Hq' Hb).
Qed.

(** two stretches of three points with two branches meet the hypotheses *)
Definition example_entry (s : nat) (from to : string) : entry :=
  let x := [INR (2 * s); INR (2 * s) + 1; INR (2 * s) + 2] in
  MkEn x [[0; 1; 2]; [3; 4; 5]] [[0; 2; 3]; [3; 3; 3]] [[0; 1; 1]; [0; -1; -2]] (Some [[1; 1; 1]; [1/2; 1/2; 1/2]]) (Some (from, to)).
Definition example_data : list entry := [example_entry 0 "GAMMA" "X"; example_entry 1 "X" "L"]%string.
Example C133_nonvacuous : example_data <> [] /\ (forall e, In e example_data -> complete_entry 2 e) /\ (forall e, In e example_data -> e_distances e <> []) /\
  map e_labels example_data = map Some [("GAMMA", "X"); ("X", "L")]%string /\ (exists hi, x_limits example_data = Some hi) /\
  colour_of ["r"; "g"; "b"]%string 4 = "g"%string.
Proof.
  split; [discriminate|]. split.
  - intros e [<-|[<-|[]]]; (split; [|split; [|split; [|eexists; split; [reflexivity|]]]]); (split; [reflexivity|]; intros row Hr; cbn in Hr; destruct Hr as [<-|[<-|[]]]; reflexivity).
  - split; [intros e [<-|[<-|[]]]; discriminate|]. split; [reflexivity|]. split; [eexists; reflexivity|reflexivity].
Qed.
Print Assumptions C133_figures. Print Assumptions C133_quantities. Print Assumptions C133_dispersion. Print Assumptions C133_legend. Print Assumptions C133_range. Print Assumptions C133_ticks.
Print Assumptions C133_scatter. Print Assumptions C133_nonvacuous.
