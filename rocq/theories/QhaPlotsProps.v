(** C134: the shift plots and tables of the quasi-harmonic script show the shifts of the files. *)
From Coq Require Import Lra Lia.
From Verif Require Import QhaPlotsModel QhaProps.
From Verif Require QhaPressureProps.
Open Scope R_scope.

(** a data file whose entries have as many frequencies as branches, and shifts that are frequency minus harmonic frequency (what DynaPhoPy writes, C86) *)
Definition consistent_file (harmonic : table2) (branches : nat) (file : list sentry) : Prop :=
  forall k e, nth_error file k = Some e -> List.length (s_shifts e) = branches /\ forall b, (b < branches)%nat -> nth b (s_shifts e) 0 = nth b (s_frequencies e) 0 - harmonic k b.
(** the entry of wave vector k and branch b in a file *)
Definition frequency_in (file : list sentry) (k b : nat) : R := match nth_error file k with Some e => nth b (s_frequencies e) 0 | None => 0 end.
Definition shift_in (file : list sentry) (k b : nat) : R := match nth_error file k with Some e => nth b (s_shifts e) 0 | None => 0 end.
(** the pairs (abscissa, value of the file of that abscissa) *)
Definition against (x : list R) (files : list (list sentry)) (g : list sentry -> R) : list (R * R) := combine x (map g files).

(** the first entry of the first temperature file at the wave vector asked for (each component within 1e-8 and a part in 1e5 of it) is the one plotted *)
Definition first_at (file : list sentry) (q : vec) (k : nat) : Prop :=
  (exists e, nth_error file k = Some e /\ QhaPressureProps.same_point (s_q e) q) /\ forall j e, (j < k)%nat -> nth_error file j = Some e -> ~ QhaPressureProps.same_point (s_q e) q.
Lemma s_index_from_iff : forall q data i k, s_index_from i q data = Some k <-> (i <= k)%nat /\ first_at data q (k - i).
Proof.
  intros q. induction data as [|e data IH]; intros i k; cbn [s_index_from].
  - split; [discriminate|]. intros (_ & (e & E & _) & _). destruct (k - i)%nat; discriminate.
  - assert (A := QhaPressureProps.allclose_same (s_q e) q). destruct (allclose (s_q e) q).
    + split.
      * intros H. injection H as <-. rewrite Nat.sub_diag. split; [lia|]. split; [exists e; split; [reflexivity|apply A; reflexivity]|]. intros; lia.
      * intros (L & _ & N). destruct (Nat.eq_dec i k) as [->|D]; [reflexivity|]. exfalso. apply (N 0%nat e); [lia|reflexivity|apply A; reflexivity].
    + rewrite IH. split.
      * intros (L & (e' & E & S) & N). split; [lia|]. replace (k - i)%nat with (Datatypes.S (k - Datatypes.S i)) by lia. split; [exists e'; auto|].
        intros [|j] e'' Hj E''; [injection E'' as <-; intros S'; apply A in S'; discriminate|]. apply (N j e''); [lia|exact E''].
      * intros (L & (e' & E & S) & N). destruct (k - i)%nat as [|d] eqn:D; [injection E as <-; apply A in S; discriminate|].
        split; [lia|]. replace (k - Datatypes.S i)%nat with d by lia. split; [exists e'; auto|]. intros j e'' Hj E''. apply (N (Datatypes.S j) e''); [lia|exact E''].
Qed.
Theorem C134_wave_vector : forall file files q,
  (forall k, s_index (file :: files) q = Some k <-> first_at file q k) /\
  (s_index (file :: files) q = None <-> forall e, In e file -> ~ QhaPressureProps.same_point (s_q e) q).
Proof.
  intros file files q. cbn [s_index]. split.
  - intros k. rewrite s_index_from_iff, Nat.sub_0_r. intuition lia.
  - generalize 0%nat. induction file as [|e file IH]; intros i; cbn [s_index_from]; [split; [intros _ e []|reflexivity]|].
    assert (A := QhaPressureProps.allclose_same (s_q e) q). destruct (allclose (s_q e) q).
    + split; [discriminate|]. intros H. exfalso. apply (H e); [left; reflexivity|apply A; reflexivity].
    + rewrite IH. split; [intros H x [<-|I]; [intros S; apply A in S; discriminate|apply H, I]|intros H x I; apply H; right; exact I].
Qed.
Print Assumptions C134_wave_vector.

Section QhaPlots.
Context (polyfit : list R -> list R -> nat -> R -> R) (interp : list (R * R) -> R -> option R).
Context (harmonic : table2) (files_t files_v : list (list sentry)) (temps vols : list R) (ref : R) (order branches : nat).
Notation fit := (fit_of harmonic files_t files_v temps vols ref order).
Notation fitted_temperature := (plot_fitted_shifts_temperature polyfit interp harmonic files_t files_v temps vols ref order).
Notation fitted_volumes := (plot_fitted_shifts_volumes polyfit interp harmonic files_t files_v temps vols ref order).

Lemma file_shifts_some : forall files n k, (n <= List.length files)%nat -> (forall f, In f files -> (k < List.length f)%nat) ->
  file_shifts n files k = Some (map (fun f => s_shifts (nth k f s_none)) (firstn n files)).
Proof.
  induction files as [|f files IH]; intros [|n] k Hn Hk; cbn in Hn |- *; try reflexivity; [lia|].
  destruct (nth_error f k) as [e|] eqn:E; [|apply nth_error_None in E; specialize (Hk f (or_introl eq_refl)); lia].
  rewrite IH; [|lia|intros; apply Hk; right; assumption]. rewrite (nth_error_nth _ _ s_none E). reflexivity.
Qed.
Lemma column_file b k files : column b (map (fun f => s_shifts (nth k f s_none)) files) = map (fun f => nth b (s_shifts (nth k f s_none)) 0) files.
Proof. unfold column. rewrite map_map. reflexivity. Qed.
Lemma shift_in_nth f k b : shift_in f k b = nth b (s_shifts (nth k f s_none)) 0.
Proof. unfold shift_in. destruct (nth_error f k) as [e|] eqn:E; [rewrite (nth_error_nth _ _ s_none E); reflexivity|]. apply nth_error_None in E. rewrite (nth_overflow f s_none E). destruct b; reflexivity. Qed.
Lemma width_files k files nb : files <> [] -> (forall f, In f files -> List.length (s_shifts (nth k f s_none)) = nb) -> width (map (fun f => s_shifts (nth k f s_none)) files) = nb.
Proof. destruct files as [|f files]; [congruence|]. intros _ H. apply H. left. reflexivity. Qed.
Lemma in_file harm k f : consistent_file harm branches f -> (k < List.length f)%nat -> List.length (s_shifts (nth k f s_none)) = branches /\
  forall b, (b < branches)%nat -> nth b (s_shifts (nth k f s_none)) 0 = frequencies_of f k b - harm k b.
Proof. intros H Hk. destruct (nth_error f k) as [e|] eqn:E; [|apply nth_error_None in E; lia]. unfold frequencies_of. rewrite (nth_error_nth _ _ s_none E). apply (H k e E). Qed.

(** a drawn set of series for the chosen branches: without a choice one series per branch, with a choice that one *)
Lemma draw_branches x rows nb : width rows = nb -> forall b, (b < nb)%nat ->
  draw x rows (Some b) = Some [combine x (column b rows)] /\ exists l, draw x rows None = Some l /\ List.length l = nb /\ nth_error l b = Some (combine x (column b rows)).
Proof.
  intros E b Hb. unfold draw. rewrite E. destruct (Nat.ltb_spec b nb); [|lia]. split; [reflexivity|]. eexists. split; [reflexivity|]. rewrite map_length, seq_length. split; [reflexivity|].
  rewrite (map_nth_error _ b (seq 0 nb) (d := b)); [reflexivity|]. rewrite (nth_error_nth' _ 0%nat) by (rewrite seq_length; exact Hb). rewrite seq_nth by exact Hb. reflexivity.
Qed.

(** temperature: what the file plot draws, the dots of the fitted plot and the saved table are the shifts of the files, for every branch; choosing
    a branch draws that branch *)
Theorem C134_temperature : forall q k b, s_index files_t q = Some k -> (b < branches)%nat -> files_t <> [] -> List.length temps = List.length files_t ->
  (forall f, In f files_t -> consistent_file harmonic branches f /\ (k < List.length f)%nat) ->
  plot_shift_temperature files_t temps q (Some b) = Some [against temps files_t (fun f => shift_in f k b)] /\
  (exists l, plot_shift_temperature files_t temps q None = Some l /\ List.length l = branches /\ nth_error l b = Some (against temps files_t (fun f => shift_in f k b))) /\
  (forall interpolated line dots, fitted_temperature q interpolated b = Some (line, dots) -> dots = against temps files_t (fun f => shift_in f k b)) /\
  (exists t, get_shift_temperature files_t temps q = Some t /\ List.length t = branches /\ forall i, (i < List.length temps)%nat -> nth i (nth b t []) 0 = shift_in (nth i files_t []) k b).
Proof.
  intros q k b Hq Hb Hne Hl Hf. unfold plot_shift_temperature, get_shift_temperature, plot_fitted_shifts_temperature. rewrite Hq.
  assert (R1 : file_shifts (List.length temps) files_t k = Some (map (fun f => s_shifts (nth k f s_none)) files_t)).
  { rewrite file_shifts_some; [rewrite Hl, firstn_all; reflexivity|lia|]. intros f Hin. apply (Hf f Hin). }
  rewrite R1. assert (W : width (map (fun f => s_shifts (nth k f s_none)) files_t) = branches).
  { apply width_files; [exact Hne|]. intros f Hin. destruct (Hf f Hin) as (Hc & Hk). apply (in_file harmonic k f Hc Hk). }
  assert (EC : column b (map (fun f => s_shifts (nth k f s_none)) files_t) = map (fun f => shift_in f k b) files_t).
  { rewrite column_file. apply map_ext. intros f. rewrite shift_in_nth. reflexivity. }
  destruct (draw_branches temps _ branches W b Hb) as (D1 & l & D2 & D3 & D4). rewrite EC in D1, D4. split; [exact D1|]. split; [exists l; auto|]. split.
  - intros interpolated line dots H. destruct (all_values _ _); [|discriminate]. injection H as _ <-. unfold against. f_equal. unfold shifts_t, fit_of. cbn. rewrite map_map.
    apply map_ext_in. intros f Hin. destruct (Hf f Hin) as (Hc & Hk). rewrite shift_in_nth. symmetry. apply (in_file harmonic k f Hc Hk). exact Hb.
  - cbn [option_map]. eexists. split; [reflexivity|]. rewrite W, map_length, seq_length. split; [reflexivity|]. intros i Hi.
    set (G := fun b => column b (map (fun f => s_shifts (nth k f s_none)) files_t)). rewrite nth_indep with (d' := G 0%nat) by (rewrite map_length, seq_length; exact Hb).
    rewrite (map_nth G), seq_nth by exact Hb. unfold G. rewrite Nat.add_0_l, EC. rewrite nth_indep with (d' := (fun f => shift_in f k b) []) by (rewrite map_length; lia). apply (map_nth (fun f => shift_in f k b)).
Qed.

(** volume: the file plot draws the shift with respect to the harmonic frequency, while the fitted plot, whose title says the same thing (relative
    to the reference temperature), draws it with respect to the fitted frequency at the reference temperature *)
Theorem C134_volume_partial : forall q k b, s_index files_t q = Some k -> (b < branches)%nat -> files_v <> [] -> List.length vols = List.length files_v ->
  (forall f, In f files_v -> consistent_file harmonic branches f /\ (k < List.length f)%nat) ->
  plot_shift_volume files_t files_v vols q (Some b) = Some [against vols files_v (fun f => frequency_in f k b - harmonic k b)] /\
  (exists l, plot_shift_volume files_t files_v vols q None = Some l /\ List.length l = branches /\ nth_error l b = Some (against vols files_v (fun f => frequency_in f k b - harmonic k b))) /\
  (forall interpolate line dots, fitted_volumes q interpolate b = Some (line, dots) ->
     dots = against vols files_v (fun f => frequency_in f k b - (harmonic k b + fitted_t polyfit fit ref k b))).
Proof.
  intros q k b Hq Hb Hne Hl Hf. unfold plot_shift_volume, plot_fitted_shifts_volumes. rewrite Hq.
  assert (R1 : file_shifts (List.length vols) files_v k = Some (map (fun f => s_shifts (nth k f s_none)) files_v)).
  { rewrite file_shifts_some; [rewrite Hl, firstn_all; reflexivity|lia|]. intros f Hin. apply (Hf f Hin). }
  rewrite R1. assert (W : width (map (fun f => s_shifts (nth k f s_none)) files_v) = branches).
  { apply width_files; [exact Hne|]. intros f Hin. destruct (Hf f Hin) as (Hc & Hk). apply (in_file harmonic k f Hc Hk). }
  assert (EF : forall f, In f files_v -> frequency_in f k b = frequencies_of f k b).
  { intros f Hin. destruct (Hf f Hin) as (_ & Hk). unfold frequency_in, frequencies_of. destruct (nth_error f k) as [e|] eqn:E; [rewrite (nth_error_nth _ _ s_none E); reflexivity|apply nth_error_None in E; lia]. }
  assert (EC : column b (map (fun f => s_shifts (nth k f s_none)) files_v) = map (fun f => frequency_in f k b - harmonic k b) files_v).
  { rewrite column_file. apply map_ext_in. intros f Hin. destruct (Hf f Hin) as (Hc & Hk). rewrite (EF f Hin). apply (in_file harmonic k f Hc Hk). exact Hb. }
  destruct (draw_branches vols _ branches W b Hb) as (D1 & l & D2 & D3 & D4). rewrite EC in D1, D4. split; [exact D1|]. split; [exists l; auto|].
  intros interpolate line dots H. destruct (all_values _ _); [|discriminate]. injection H as _ <-. unfold against. f_equal. unfold shifts_v, reference, fit_of. cbn. rewrite map_map.
  apply map_ext_in. intros f Hin. rewrite (EF f Hin). lra.
Qed.
(** so whenever the fitted shift at the reference temperature is not zero, the two plots of the same thing disagree at every volume, by that shift *)
Theorem C134_volume_refuted : forall q k b interpolate line dots series, s_index files_t q = Some k -> (b < branches)%nat -> files_v <> [] -> List.length vols = List.length files_v ->
  (forall f, In f files_v -> consistent_file harmonic branches f /\ (k < List.length f)%nat) -> fitted_t polyfit fit ref k b <> 0 ->
  fitted_volumes q interpolate b = Some (line, dots) -> plot_shift_volume files_t files_v vols q (Some b) = Some [series] ->
  forall i, (i < List.length vols)%nat -> exists v y y', nth_error series i = Some (v, y) /\ nth_error dots i = Some (v, y') /\ y - y' = fitted_t polyfit fit ref k b /\ y <> y'.
Proof.
  intros q k b interpolate line dots series Hq Hb Hne Hl Hf Hr Hd Hs i Hi. destruct (C134_volume_partial q k b Hq Hb Hne Hl Hf) as (P1 & _ & P3).
  rewrite P1 in Hs. injection Hs as <-. rewrite (P3 interpolate line dots Hd). unfold against.
  assert (G : forall g : list sentry -> R, nth_error (combine vols (map g files_v)) i = Some (nth i vols 0, g (nth i files_v []))).
  { intros g. rewrite (nth_error_nth' _ (0, 0)) by (rewrite combine_length, map_length; lia). f_equal. rewrite combine_nth by (rewrite map_length; exact Hl). f_equal.
    rewrite nth_indep with (d' := g []) by (rewrite map_length; lia). apply (map_nth g). }
  do 3 eexists. split; [apply G|]. split; [apply G|]. cbv beta. split; [ring|]. lra.
Qed.

(** the lines: drawn at T0, T0 + 10, ... below the last temperature, complete, and with the spline they pass through the dots they meet *)
Definition defined_inside (x : list R) : Prop := forall y t, List.length y = List.length x -> hd 0 x <= t <= last x 0 -> interp (combine x y) t <> None.
Lemma chk_in x step t : 0 < step -> In t (chk_list x step) <-> exists n : nat, t = hd 0 x + INR n * step /\ t < last x 0.
Proof.
  intros Hs. unfold chk_list, arange_len. set (a := hd 0 x). set (z := last x 0). assert (A := archimed ((z - a) / step)).
  assert (U : INR (Z.to_nat (up ((z - a) / step))) = IZR (Z.max 0 (up ((z - a) / step)))) by (rewrite INR_IZR_INZ; f_equal; lia).
  assert (B : (z - a) / step < INR (Z.to_nat (up ((z - a) / step)))) by (rewrite U; assert (IZR (up ((z - a) / step)) <= IZR (Z.max 0 (up ((z - a) / step)))) by (apply IZR_le; lia); lra).
  generalize dependent (Z.to_nat (up ((z - a) / step))). intros fuel _ B'.
  assert (G : forall fuel s, (z - s) / step < INR fuel + 1 -> In t (arange_from fuel s z step) <-> exists n : nat, (n < fuel)%nat /\ t = s + INR n * step /\ t < z).
  { clear -Hs. induction fuel as [|fuel IH]; intros s B; cbn [arange_from].
    - split; [intros []|]. intros (n & Hn & _). lia.
    - destruct (Rlt_dec s z) as [L|L].
      + assert (B' : (z - (s + step)) / step < INR fuel + 1) by (rewrite S_INR in B; replace ((z - (s + step)) / step) with ((z - s) / step - 1) by (field; lra); lra).
        cbn [In]. rewrite (IH (s + step) B'). split.
        * intros [<-|(n & Hn & -> & Hx)]; [exists 0%nat; split; [lia|]; cbn; split; [ring|exact L]|]. exists (S n). rewrite S_INR. split; [lia|]. split; [ring|exact Hx].
        * intros ([|n] & Hn & -> & Hx); [left; cbn; ring|right]. exists n. rewrite S_INR in *. split; [lia|]. split; [ring|lra].
      + split; [intros []|]. intros (n & Hn & -> & Hx). assert (0 <= INR n * step) by (apply Rmult_le_pos; [apply pos_INR|lra]). lra. }
  rewrite (G fuel a ltac:(lra)). split; [intros (n & _ & H); exists n; exact H|]. intros (n & -> & H). exists n. split; [|split; [reflexivity|exact H]].
  apply INR_lt. assert (X : INR n < (z - a) / step). { apply Rmult_lt_reg_r with step; [exact Hs|]. unfold Rdiv. rewrite Rmult_assoc, Rinv_l by lra. lra. } lra.
Qed.
Lemma all_values_some g l : (forall x, In x l -> g x <> None) -> exists y, all_values g l = Some y /\ List.length y = List.length l /\ forall x v, In (x, v) (combine l y) -> g x = Some v.
Proof.
  induction l as [|x l IH]; intros H; [exists []; split; [reflexivity|]; split; [reflexivity|intros x v []]|].
  destruct IH as (y & E & L & V); [intros; apply H; right; assumption|]. cbn. destruct (g x) as [v|] eqn:Ex; [|exfalso; apply (H x (or_introl eq_refl)); exact Ex]. rewrite E. exists (v :: y).
  split; [reflexivity|]. split; [cbn; congruence|]. intros x' v' [Hx|Hx]; [injection Hx as <- <-; exact Ex|apply (V x' v' Hx)].
Qed.
Theorem C134_lines : forall q k b (interpolated : bool), s_index files_t q = Some k -> List.length temps = List.length files_t ->
  defined_inside temps -> through interp -> NoDup temps ->
  exists line dots, fitted_temperature q interpolated b = Some (line, dots) /\
  (forall t, (exists v, In (t, v) line) <-> exists n : nat, t = hd 0 temps + INR n * 10 /\ t < last temps 0) /\
  (interpolated = true -> forall t v v', In (t, v) line -> In (t, v') dots -> v = v') /\
  (interpolated = false -> forall t v, In (t, v) line -> v = polyfit temps (map snd dots) order t).
Proof.
  intros q k b ip Hq Hl Hd Ht Hn. unfold plot_fitted_shifts_temperature. rewrite Hq. set (g := fun t => if ip then interpolated_t interp fit t k b else Some (fitted_t polyfit fit t k b)).
  assert (Ls : List.length (shifts_t fit k b) = List.length temps) by (unfold shifts_t, fit_of; cbn; rewrite !map_length; lia).
  destruct (all_values_some g (chk_list temps 10)) as (y & E & L & V).
  { intros t Hin. apply chk_in in Hin as (n & -> & Hx); [|lra]. unfold g. destruct ip; [|discriminate]. unfold interpolated_t. apply Hd; [exact Ls|].
    assert (0 <= INR n * 10) by (apply Rmult_le_pos; [apply pos_INR|lra]). lra. }
  rewrite E. do 2 eexists. split; [reflexivity|]. split; [|split].
  - intros t. rewrite <- chk_in by lra. split; [intros (v & Hv); apply in_combine_l in Hv; exact Hv|]. intros Hin. destruct (In_nth _ _ 0 Hin) as (i & Hi & <-). exists (nth i y 0).
    rewrite <- combine_nth by congruence. apply nth_In. rewrite combine_length. lia.
  - intros -> t v v' H1 H2. specialize (V t v H1). unfold g, interpolated_t in V. cbn [f_temperatures fit_of] in V.
    assert (X : interp (combine temps (shifts_t fit k b)) t = Some v'). { apply Ht; [|exact H2]. clear -Hn Ls. revert Ls. generalize (shifts_t fit k b). intros s. revert Hn. revert s. induction temps as [|a l IH]; intros [|c s] Hn Ls; cbn in *; try constructor; try discriminate.
      - intros X. apply in_map_iff in X as ((a', c') & E' & X). cbn in E'. subst a'. apply in_combine_l in X. inversion Hn. contradiction.
      - inversion Hn as [|? ? H1 H2]. subst. apply IH; [exact H2|lia]. }
    congruence.
  - intros -> t v H1. specialize (V t v H1). unfold g in V. injection V as <-. unfold fitted_t. cbn [f_temperatures f_order fit_of]. f_equal.
    clear -Ls. revert Ls. generalize (shifts_t fit k b). intros s. revert s. induction temps as [|a l IH]; intros [|c s] Ls; cbn in *; try reflexivity; try discriminate. f_equal. apply IH. lia.
Qed.

(** * the end of the script *)
Notation main' := (main polyfit interp harmonic files_t files_v temps vols ref order branches).
(** with tick labels in the path of the input file, Python 3 stops at the dispersion plot: the two tables are never written, whatever the data *)
Theorem C134_labels_refuted : forall {D} qt qv (experiment : option D) python show first labels, python <> 2%nat ->
  o_files (main' qt qv experiment python show (Some (first :: labels))) = [] /\ (s_index files_t corner <> None -> o_end (main' qt qv experiment python show (Some (first :: labels))) = Raised) /\
  plot_band_structure_constant_pressure python show (Some (first :: labels)) experiment = None.
Proof.
  intros D qt qv experiment python show first labels Hp.
  assert (X : forall e : option D, plot_band_structure_constant_pressure python show (Some (first :: labels)) e = None).
  { intros e. unfold plot_band_structure_constant_pressure, label_calls. set (L := first :: labels). change (seq 0 (List.length L)) with (0%nat :: seq 1 (List.length labels)). cbn [flat_map].
    assert (Y : forall a l, all_labels (qha_replace_list python show) (a :: l) = None) by (intros a l; cbn; unfold qha_replace_list; destruct (Nat.eqb_spec python 2); [contradiction|reflexivity]).
    destruct (String.eqb _ _); cbn [app]; rewrite Y; reflexivity. }
  unfold main. destruct (s_index files_t corner); [|split; [reflexivity|]; split; [congruence|apply X]].
  destruct (_ && _)%bool; [|split; [reflexivity|]; split; [reflexivity|apply X]].
  destruct experiment as [d|]; [rewrite X|]; (split; [reflexivity|]; split; [reflexivity|]); [reflexivity|apply (X None)].
Qed.
(** the dispersion plot cannot be drawn without experimental data, although the argument has a default *)
Theorem C134_external_data_refuted : forall {D} python show labels, plot_band_structure_constant_pressure (D := D) python show labels None = None.
Proof. intros D python show labels. unfold plot_band_structure_constant_pressure. destruct (match labels with None => _ | Some _ => _ end); reflexivity. Qed.
(** when the script ends normally (no labels) the two tables have a row per temperature and a column per branch: total shifts at constant pressure,
    each at the volume of its temperature, and the shifts of the files *)
Theorem C134_saved_partial : forall {D} qt qv (experiment : option D) python show labels files, main' qt qv experiment python show labels = MkO Exited files ->
  s_index files_t corner = None /\ files = [] \/
  exists k total shift, s_index files_t corner = Some k /\ files = [("shift_r", total); ("tshift_r", shift)]%string /\ experiment <> None /\ (labels = None \/ labels = Some [] \/ python = 2%nat) /\
    List.length total = Nat.min (List.length qt) (List.length qv) /\
    (forall i t v b, nth_error qt i = Some t -> nth_error qv i = Some v -> (b < branches)%nat -> get_total_shifts polyfit interp fit (Some v) t false false k b = Some (nth b (nth i total []) 0)) /\
    (List.length temps = List.length files_t -> files_t <> [] -> (forall f, In f files_t -> consistent_file harmonic branches f /\ (k < List.length f)%nat) ->
       List.length shift = List.length temps /\ forall i b, (i < List.length temps)%nat -> (b < branches)%nat -> nth b (nth i shift []) 0 = shift_in (nth i files_t []) k b).
Proof.
  intros D qt qv experiment python show labels files H. unfold main in H. destruct (s_index files_t corner) as [k|] eqn:Hk; [right|left; injection H as <-; auto].
  destruct (_ && _)%bool in H; [|discriminate]. destruct experiment as [d|]; [|discriminate]. destruct (plot_band_structure_constant_pressure python show labels (Some d)) as [lab|] eqn:El; [|discriminate].
  destruct (plot_shift_volume _ _ _ _ _) in H; [|discriminate]. destruct (total_shift_table _ _ _ _ _ _ _ _ _ _ _ _ _) as [total|] eqn:Et in H; [|discriminate].
  destruct (Nat.ltb 2 branches) eqn:Hbr; [|discriminate]. destruct (get_shift_temperature files_t temps corner) as [s|] eqn:Es; [|discriminate]. injection H as <-.
  exists k. do 2 eexists. split; [reflexivity|]. split; [reflexivity|]. split; [discriminate|]. split.
  { destruct labels as [[|first ll]|]; [auto| |auto]. right. right. destruct (Nat.eq_dec python 2) as [|N]; [assumption|]. exfalso.
    destruct (C134_labels_refuted qt qv (Some d) python show first ll N) as (_ & _ & X). congruence. }
  unfold total_shift_table in Et. rewrite Hk in Et.
  match type of Et with option_map _ (?G _) = _ => set (go := G) in Et end. destruct (go (seq 0 branches)) as [cols|] eqn:Eg; [|discriminate]. cbn [option_map] in Et. injection Et as <-.
  assert (GC : forall bs cols, go bs = Some cols -> List.length cols = List.length bs /\ forall j b, nth_error bs j = Some b -> exists x, nth_error cols j = Some x /\ get_total_shift_constant_pressure polyfit interp qt qv fit k b = Some x).
  { clear. induction bs as [|b bs IH]; intros cols H; cbn in H.
    - injection H as <-. split; [reflexivity|]. intros [|]; discriminate.
    - fold go in H. destruct (get_total_shift_constant_pressure _ _ _ _ _ _ _) as [x|] eqn:Ex; [|discriminate]. destruct (go bs) as [r|] eqn:Er; [|discriminate]. injection H as <-. destruct (IH r eq_refl) as (L & V).
      split; [cbn; congruence|]. intros [|j] b' Hj; cbn in Hj |- *; [injection Hj as <-; eauto|apply (V j b' Hj)]. }
  destruct (GC _ _ Eg) as (Lc & Vc). rewrite seq_length in Lc. rewrite map_length, seq_length. split; [reflexivity|]. split.
  - intros i t v b Hit Hiv Hb. assert (Hi : (i < Nat.min (List.length qt) (List.length qv))%nat) by (apply Nat.min_glb_lt; apply nth_error_Some; congruence).
    set (F := fun i => map (fun col => nth i col 0) cols). rewrite nth_indep with (d' := F 0%nat) by (rewrite map_length, seq_length; exact Hi). rewrite (map_nth F), seq_nth by exact Hi. unfold F. rewrite Nat.add_0_l.
    destruct (Vc b b) as (x & Ex & Ev); [rewrite (nth_error_nth' _ 0%nat) by (rewrite seq_length; exact Hb); rewrite seq_nth by exact Hb; reflexivity|].
    rewrite nth_indep with (d' := (fun col => nth i col 0) []) by (rewrite map_length; lia). rewrite (map_nth (fun col => nth i col 0)), (nth_error_nth _ _ _ Ex).
    unfold get_total_shift_constant_pressure in Ev. assert (Hvt : nth_error (combine qv qt) i = Some (v, t)).
    { clear -Hit Hiv. revert qt qv Hit Hiv. induction i as [|i IH]; intros [|a qt] [|c qv] Ht Hv; cbn in *; try discriminate; [congruence|]. apply IH; assumption. }
    clear -Ev Hvt. revert x i Ev Hvt. induction (combine qv qt) as [|(v0, t0) l IH]; intros x i Ev Hvt; [destruct i; discriminate|]. cbn [total_shifts] in Ev.
    destruct (get_total_shifts polyfit interp fit (Some v0) t0 false false k b) as [x0|] eqn:E0; [|discriminate]. destruct (total_shifts polyfit interp fit k b l) as [r|] eqn:Er; [|discriminate]. injection Ev as <-.
    destruct i as [|i]; cbn in Hvt |- *; [injection Hvt as -> ->; exact E0|apply (IH r i eq_refl Hvt)].
  - intros Hl Hne Hf. rewrite map_length, seq_length. split; [reflexivity|]. intros i b Hi Hb. destruct (C134_temperature corner k b Hk Hb Hne Hl Hf) as (_ & _ & _ & s' & Es' & Ls & Vs).
    rewrite Es in Es'. injection Es' as <-. set (F := fun i => map (fun row => nth i row 0) s). rewrite nth_indep with (d' := F 0%nat) by (rewrite map_length, seq_length; exact Hi). rewrite (map_nth F), seq_nth by exact Hi. unfold F.
    rewrite Nat.add_0_l. rewrite nth_indep with (d' := (fun row => nth i row 0) []) by (rewrite map_length; lia). rewrite (map_nth (fun row => nth i row 0)). apply Vs. exact Hi.
Qed.
End QhaPlots.

(** one commensurate point, the corner, with three branches, two temperatures and two volumes: the hypotheses hold, the reference shift is not 0, and
    without labels the script writes both tables *)
Definition ex_file (d : R) : list sentry := [MkSE corner [1 + d; 2 + d; 3 + d] [d; d; d]].
Definition ex_harmonic : table2 := fun _ b => INR b + 1.
Definition ex_polyfit (x y : list R) (n : nat) (t : R) : R := nth 0 y 0.
Definition ex_spline (l : list (R * R)) (t : R) : option R := Some 7.
Example C134_nonvacuous :
  let files := [ex_file 1; ex_file 2] in
  s_index files corner = Some 0%nat /\ (forall f, In f files -> consistent_file ex_harmonic 3 f /\ (0 < List.length f)%nat) /\
  fitted_t ex_polyfit (fit_of ex_harmonic files files [200; 300] [10; 11] 300 1) 300 0%nat 1%nat <> 0 /\
  (exists total shift, main ex_polyfit ex_spline ex_harmonic files files [200; 300] [10; 11] 300 1 3 [300; 400] [10; 11] (Some tt) 3 (fun s => s) None = MkO Exited [("shift_r", total); ("tshift_r", shift)]%string).
Proof.
  assert (A : s_index [ex_file 1; ex_file 2] corner = Some 0%nat).
  { cbn. unfold allclose, close1. cbn. replace (1 / 2 - 1 / 2) with 0 by lra. rewrite Rabs_R0. destruct (Rle_dec 0 _) as [|N]; [reflexivity|]. exfalso. apply N. rewrite Rabs_pos_eq by lra. lra. }
  cbv zeta. split; [exact A|]. split.
  - intros f [<-|[<-|[]]]; (split; [|cbn; lia]); intros [|[|k]] e He; try discriminate; injection He as <-; cbn [s_shifts s_frequencies]; (split; [reflexivity|]); intros [|[|[|b]]] Hb; try lia; unfold ex_harmonic; cbn; lra.
  - split; [unfold fitted_t, ex_polyfit, shifts_t, fit_of, frequencies_of, ex_harmonic, ex_file; cbn; lra|].
    unfold main. rewrite A. unfold plot_fitted_shifts_temperature, plot_fitted_shifts_volumes, plot_shift_volume, get_shift_temperature, total_shift_table. rewrite A.
    assert (AV : forall g l, (forall x : R, g x <> None) -> exists y, all_values g l = Some y) by (intros g l H; destruct (all_values_some g l (fun x _ => H x)) as (y & E & _); eauto).
    assert (F1 : forall (P : nat -> bool), (forall b, P b = true) -> forallb P (seq 0 3) = true) by (intros P H; apply forallb_forall; intros; apply H).
    rewrite !F1.
    + cbn [andb plot_band_structure_constant_pressure option_map]. cbn. do 2 eexists. reflexivity.
    + intros b. destruct (AV (fun v => Some (fitted_v ex_polyfit (fit_of ex_harmonic [ex_file 1; ex_file 2] [ex_file 1; ex_file 2] [200; 300] [10; 11] 300 1) v 0%nat b)) (chk_list [10; 11] (1/10))) as (y & Ey); [discriminate|].
      match goal with |- context [all_values ?g ?l] => destruct (AV g l ltac:(intros; discriminate)) as (z & Ez); rewrite Ez end. reflexivity.
    + intros b. match goal with |- context [all_values ?g ?l] => destruct (AV g l ltac:(intros; discriminate)) as (z & Ez); rewrite Ez end. reflexivity.
Qed.
Print Assumptions C134_temperature. Print Assumptions C134_volume_partial. Print Assumptions C134_volume_refuted. Print Assumptions C134_lines. Print Assumptions C134_labels_refuted.
Print Assumptions C134_external_data_refuted. Print Assumptions C134_saved_partial. Print Assumptions C134_nonvacuous.
