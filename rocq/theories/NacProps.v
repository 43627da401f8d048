(** C141: all phonopy results of one calculation describe the same system: same force constants, same supercell, same non-analytical correction. *)
From Verif Require Import NacModel.
From Coq Require Import Lia Lra.
Open Scope R_scope.

(** ---------- specification ---------- *)
(** the table lists the values fs at the wave vector q *)
Definition lists (points : list vec) (values : list (list R)) (q : vec) (fs : list R) : Prop :=
  exists k, nth_error points k = Some q /\ nth_error values k = Some fs.
(** some path of the dispersion lists the values fs at the wave vector q *)
Definition band_lists (b : bands) (q : vec) (fs : list R) : Prop :=
  exists i points values, nth_error (b_points b) i = Some points /\ nth_error (b_frequencies b) i = Some values /\ lists points values q fs.
(** the path starts and ends where the range says *)
Definition spans (r : vec * vec) (points : list vec) : Prop := nth_error points 0 = Some (fst r) /\ last points (fst r) = snd r.

Section Props.
Context {FC S0 Mesh : Type}.
Notation phonon := (@phonon FC S0).
Notation constants := (@constants FC S0).
Notation structure := (@structure FC S0).
Notation fitting := (@fitting FC S0 Mesh).
Context (total_dos : phonon -> Mesh -> option R -> option R -> option R -> list R * list R)
        (projected_dos : phonon -> Mesh -> option R -> option R -> list R * list (list R))
        (thermal : phonon -> Mesh -> R -> R * R * R)
        (frequencies : phonon -> vec -> list R)
        (path_distances : list (list vec) -> list (list R))
        (mesh_points : Mesh -> list (vec * nat)).
Context (total : R -> R -> constants).
(** phonopy set up for the given force constants and correction *)
Definition set_up (fc : constants) (nac : bool) (ph : phonon) : Prop := ph_array ph = fc_array fc /\ ph_supercell ph = fc_supercell fc /\ ph_nac ph = nac.
Notation dos_of f t v := (get_dos total_dos projected_dos total f t v).
Notation dos_plot f i t := (plot_density_of_states total_dos projected_dos total f i t).
Notation table_of f v := (get_thermal_properties thermal total f v).
Notation band_of f t v r := (get_band_structure frequencies path_distances total f t v r).
Notation gradient f a e r t0 t1 dt := (band_gradient frequencies path_distances total f a e r t0 t1 dt).

Lemma set_up_eq fc nac ph : set_up fc nac ph -> ph = MkPhonon (fc_array fc) (fc_supercell fc) nac.
Proof. destruct ph; cbn. intros (?&?&?); cbn in *; subst; reflexivity. Qed.
Lemma lists_map points (g : vec -> list R) q fs : lists points (map g points) q fs -> fs = g q /\ In q points.
Proof.
  intros (k & H1 & H2). rewrite nth_error_map, H1 in H2. cbn in H2. injection H2 as <-. split; [reflexivity|]. exact (nth_error_In _ _ H1).
Qed.
Lemma sequence_nth {A} (l : list (option A)) l' : sequence l = Some l' -> forall k, nth_error l k = option_map Some (nth_error l' k).
Proof.
  revert l'. induction l as [|[a|] l IH]; intros l' H; cbn in H; try discriminate.
  - injection H as <-. intros [|k]; reflexivity.
  - destruct (sequence l) as [r|]; cbn in H; [|discriminate]. injection H as <-. intros [|k]; [reflexivity|]. exact (IH r eq_refl k).
Qed.
Lemma sequence_length {A} (l : list (option A)) l' : sequence l = Some l' -> List.length l' = List.length l.
Proof.
  revert l'. induction l as [|[a|] l IH]; intros l' H; cbn in H; try discriminate; [injection H as <-; reflexivity|].
  destruct (sequence l) as [r|]; cbn in H; [|discriminate]. injection H as <-. cbn. f_equal. exact (IH r eq_refl).
Qed.
Lemma sequence_all {A} (l : list (option A)) : (forall x, In x l -> x <> None) -> exists l', sequence l = Some l'.
Proof.
  induction l as [|[a|] l IH]; intros H; cbn.
  - eexists; reflexivity.
  - destruct IH as [r ->]; [intros x Hx; apply H; right; exact Hx|]. eexists; reflexivity.
  - exfalso. exact (H None (or_introl eq_refl) eq_refl).
Qed.
Lemma band_listed s ranges fc nac n b q fs ph :
  obtain_phonon_dispersion_bands frequencies path_distances s ranges (Some fc) nac n = Some b -> set_up fc nac ph -> band_lists b q fs -> fs = frequencies ph q.
Proof.
  intros H E (i & points & values & H1 & H2 & L). unfold obtain_phonon_dispersion_bands in H. cbn in H. injection H as <-. cbn in H1, H2.
  rewrite (set_up_eq _ _ _ E). rewrite nth_error_map, H1 in H2. cbn in H2. injection H2 as <-. exact (proj1 (lists_map _ _ _ _ L)).
Qed.
Lemma vec_line a b : forall x, x = 1 -> vadd a (vscale x (vsub b a)) = b.
Proof. intros x ->. destruct a, b. unfold vadd, vscale, vsub. cbn. f_equal; ring. Qed.
Lemma path_spans a b n : (0 < n)%nat -> spans (a, b) (band_path a b n).
Proof.
  intros Hn. unfold spans, band_path. cbn [fst snd]. split.
  - rewrite Nat.add_1_r. cbn [seq map nth_error]. f_equal. destruct a, b. unfold vadd, vscale, vsub. cbn. f_equal; ring.
  - rewrite Nat.add_1_r, seq_S, map_app. cbn [map Nat.add]. rewrite last_last.
    assert (N : INR n <> 0) by (apply not_0_INR; lia). destruct a, b. unfold vadd, vscale, vsub. cbn. f_equal; field; exact N.
Qed.

(** Quasi-harmonic script, after any choice of use_NAC: the density of states, the thermal tables and the dispersions at a temperature and a volume
    are all phonopy's for the force constants of that temperature and volume with the correction of the fitting object. *)
Theorem C141_quasiharmonic_partial (f : fitting) (t v : R) (ph : phonon) :
  set_up (total t v) (f_nac f) ph ->
  (exists k g d, dos_of f t v = Some (g, map (fun x => x * k) d) /\ (g, d) = total_dos ph (f_mesh f) None None None
     /\ k = INR (number_of_atoms (f_structure f)) / INR (number_of_primitive_atoms (f_structure f)))
  /\ (forall rows i, table_of f (Some v) = Some rows -> nth_error (f_range f) i = Some t ->
        nth_error rows i = obtain_phonopy_thermal_properties thermal (f_structure f) t (f_mesh f) (Some (MkFC (ph_array ph) (ph_supercell ph))) (ph_nac ph))
  /\ (exists rows, table_of f (Some v) = Some rows /\ List.length rows = List.length (f_range f))
  /\ (forall ranges, exists b, band_of f t v ranges = Some b
        /\ (forall q fs, band_lists b q fs -> fs = frequencies ph q)
        /\ (forall i r, nth_error ranges i = Some r -> exists points, nth_error (b_points b) i = Some points /\ spans r points /\ List.length points = 31%nat)).
Proof.
  intros E. pose proof (set_up_eq _ _ _ E) as ->. repeat split.
  - unfold get_dos, obtain_phonopy_dos. cbn [prepare]. change ((-1 <? 0)%Z) with true. cbv iota.
    destruct (total_dos _ (f_mesh f) None None None) as [g d]. exists (relation (f_structure f)), g, d. repeat split; reflexivity.
  - intros rows i H Hi. unfold get_thermal_properties in H. pose proof (sequence_nth _ _ H i) as N. rewrite nth_error_map, Hi in N. cbn [option_map] in N.
    destruct (nth_error rows i) as [row|]; cbn in N; [|discriminate]. injection N as N. rewrite <- N. reflexivity.
  - unfold get_thermal_properties.
    destruct (sequence_all (map (fun t0 => obtain_phonopy_thermal_properties thermal (f_structure f) t0 (f_mesh f) (Some (total t0 v)) (f_nac f)) (f_range f))) as [rows H].
    + intros x Hx. apply in_map_iff in Hx. destruct Hx as (t0 & <- & _). cbn. discriminate.
    + exists rows. split; [exact H|]. rewrite (sequence_length _ _ H), map_length. reflexivity.
  - intros ranges. eexists. split; [reflexivity|]. split.
    + intros q fs L. refine (band_listed (f_structure f) ranges (total t v) (f_nac f) 30 _ q fs _ _ E L). reflexivity.
    + intros i r Hi. cbn [b_points]. rewrite nth_error_map, Hi. cbn [option_map]. exists (band_path (fst r) (snd r) 30). split; [reflexivity|]. split.
      * destruct r as [a b]. exact (path_spans a b 30 ltac:(lia)).
      * unfold band_path. rewrite map_length, seq_length. reflexivity.
Qed.

(** without a volume the tables are those of the first volume; the figure of the thermal properties shows, against the temperatures of the tables,
    the tables of the chosen volume *)
Theorem C141_thermal_volume (f : fitting) (i : nat) (v : R) :
  nth_error (f_volumes f) i = Some v ->
  (i = 0%nat -> table_of f None = table_of f (Some v))
  /\ exists rows, plot_thermal_properties thermal total f i = Some (f_range f, rows) /\ table_of f (Some v) = Some rows.
Proof.
  intros H. split.
  - intros ->. unfold get_thermal_properties. rewrite H. reflexivity.
  - unfold plot_thermal_properties. rewrite H. unfold get_thermal_properties.
    destruct (sequence_all (map (fun t0 => obtain_phonopy_thermal_properties thermal (f_structure f) t0 (f_mesh f) (Some (total t0 v)) (f_nac f)) (f_range f))) as [rows Q].
    + intros x Hx. apply in_map_iff in Hx. destruct Hx as (t0 & <- & _). cbn. discriminate.
    + exists rows. rewrite Q. split; reflexivity.
Qed.

(** plot_density_of_states ignores the correction of the object: it shows get_dos of an object without it, so it agrees with get_dos only where the
    correction changes nothing.  (The script always works with the correction.) *)
Theorem C141_density_plot_refuted (f : fitting) (i : nat) (t v : R) (with_nac without : phonon) :
  f_nac f = true -> nth_error (f_volumes f) i = Some v -> set_up (total t v) true with_nac -> set_up (total t v) false without ->
  (0 < number_of_atoms (f_structure f))%nat -> (0 < number_of_primitive_atoms (f_structure f))%nat ->
  (dos_plot f i t = dos_of f t v <-> total_dos with_nac (f_mesh f) None None None = total_dos without (f_mesh f) None None None)
  /\ dos_plot f i t = dos_of (MkFit (f_structure f) (f_mesh f) (f_volumes f) (f_range f) false) t v.
Proof.
  intros N Hv E1 E2 A P. pose proof (set_up_eq _ _ _ E1) as ->. pose proof (set_up_eq _ _ _ E2) as ->.
  assert (K : relation (f_structure f) <> 0).
  { unfold relation. apply Rmult_integral_contrapositive_currified; [apply not_0_INR; lia|]. apply Rinv_neq_0_compat, not_0_INR. lia. }
  unfold plot_density_of_states, get_dos. rewrite Hv, N. split; [|reflexivity].
  unfold obtain_phonopy_dos. cbn [prepare]. change ((-1 <? 0)%Z) with true. cbv iota.
  destruct (total_dos (MkPhonon _ _ false) _ None None None) as [g0 d0], (total_dos (MkPhonon _ _ true) _ None None None) as [g1 d1]. split.
  - intros H. injection H as <- H. f_equal. revert d1 H. induction d0 as [|x d0 IH]; intros [|y d1] H; cbn in H; try discriminate; [reflexivity|].
    injection H as H1 H. f_equal; [|exact (IH _ H)]. apply Rmult_eq_reg_r with (relation (f_structure f)); [lra|exact K].
  - intros H. injection H as -> ->. reflexivity.
Qed.

(** every dispersion of plot_band_structure_gradient belongs to the temperature of its colour, at the volume of that same temperature *)
Theorem C141_band_gradient (f : fitting) (analysed equilibrium : list R) (ranges : list (vec * vec)) (tmin tmax tstep : R) curves :
  gradient f analysed equilibrium ranges tmin tmax tstep = Some curves ->
  map fst curves = arange tmin tmax tstep
  /\ forall t b, In (t, b) curves -> exists v, QhaPressureModel.np_interp t analysed equilibrium = Some v /\
       forall ph q fs, set_up (total t v) (f_nac f) ph -> band_lists b q fs -> fs = frequencies ph q.
Proof.
  unfold band_gradient. revert curves. induction (arange tmin tmax tstep) as [|t0 l IH]; intros curves H; cbn [map sequence] in H.
  - injection H as <-. split; [reflexivity|]. intros t b [].
  - destruct (QhaPressureModel.np_interp t0 analysed equilibrium) as [v|] eqn:V; [|discriminate].
    destruct (band_of f t0 v ranges) as [b0|] eqn:B; cbn [option_map] in H; [|discriminate].
    match type of H with option_map _ ?x = _ => destruct x as [r|] eqn:Q end; cbn in H; [|discriminate]. injection H as <-.
    destruct (IH r eq_refl) as [I1 I2]. split; [cbn; f_equal; exact I1|].
    intros t b [X|X]; [|exact (I2 _ _ X)]. injection X as <- <-. exists v. split; [exact V|]. intros ph q fs E L. exact (band_listed (f_structure f) ranges (total t0 v) (f_nac f) 30 b0 q fs ph B E L).
Qed.

Notation setting := (@settings Mesh).
Notation curves p s fc := (dispersions frequencies path_distances p s fc).
Notation mesh_of p fc w := (get_mesh_frequencies_and_linewidths frequencies mesh_points p fc w).
(** Quasiparticle: the harmonic and the renormalized dispersion are drawn on the same paths with the same correction, that of the settings *)
Theorem C141_dispersions_partial (p : setting) (s : structure) (own renormalized : constants) (h r : phonon) :
  forces s = Some own -> set_up own (use_nac p) h -> set_up renormalized (use_nac p) r ->
  exists bh br, curves p s renormalized = (Some bh, Some br) /\ b_points bh = b_points br /\ b_distances bh = b_distances br
    /\ ((0 < band_resolution p)%nat -> forall i r, nth_error (band_ranges p) i = Some r -> exists points, nth_error (b_points br) i = Some points /\ spans r points /\ List.length points = Datatypes.S (band_resolution p))
    /\ (forall q fs, band_lists bh q fs -> fs = frequencies h q) /\ (forall q fs, band_lists br q fs -> fs = frequencies r q).
Proof.
  intros F E1 E2. unfold dispersions, obtain_phonon_dispersion_bands. cbn [prepare]. rewrite F. do 2 eexists. split; [reflexivity|]. cbn [b_points b_distances].
  split; [reflexivity|]. split; [reflexivity|]. split.
  { intros N i x Hi. rewrite nth_error_map, Hi. cbn [option_map]. exists (band_path (fst x) (snd x) (band_resolution p)). split; [reflexivity|].
    split; [destruct x; apply path_spans; exact N|]. unfold band_path. rewrite map_length, seq_length. lia. }
  split; intros q fs (i & points & values & H1 & H2 & L); cbn in H1, H2; rewrite nth_error_map, H1 in H2; cbn in H2; injection H2 as <-;
    rewrite ?(set_up_eq _ _ _ E1), ?(set_up_eq _ _ _ E2); exact (proj1 (lists_map _ _ _ _ L)).
Qed.
(** the mesh data never have the correction: at a wave vector listed by both, mesh and dispersion agree exactly when the correction changes nothing
    there, and set_NAC changes nothing in the mesh data *)
Theorem C141_mesh_refuted (p : setting) (s : structure) (renormalized widths : constants) (bh : option bands) (br : bands) (with_choice without of_widths : phonon) qs ws fr lw q fm fp :
  curves p s renormalized = (bh, Some br) -> mesh_of p renormalized widths = (qs, ws, fr, lw) ->
  set_up renormalized (use_nac p) with_choice -> set_up renormalized false without -> set_up widths false of_widths ->
  lists qs fr q fm -> band_lists br q fp ->
  fm = frequencies without q
  /\ (fm = fp <-> frequencies with_choice q = frequencies without q)
  /\ (forall fw, lists qs lw q fw -> fw = frequencies of_widths q)
  /\ (qs = map fst (mesh_points (mesh_phonopy p)) /\ ws = map snd (mesh_points (mesh_phonopy p)))
  /\ forall nac, mesh_of (MkSet nac (mesh_phonopy p) (band_ranges p) (band_resolution p)) renormalized widths = mesh_of p renormalized widths.
Proof.
  intros C M E1 E2 E3 L1 L2. unfold dispersions in C. apply (f_equal snd) in C. cbn [snd] in C. pose proof (band_listed s (band_ranges p) renormalized (use_nac p) (band_resolution p) br q fp _ C E1 L2) as Hp.
  unfold get_mesh_frequencies_and_linewidths, obtain_phonopy_mesh_from_force_constants in M. injection M as <- <- <- <-.
  rewrite <- (set_up_eq _ _ _ E2) in L1. rewrite <- map_map with (f := fst) (g := frequencies without) in L1.
  destruct (lists_map _ _ _ _ L1) as [Hm _]. subst fm fp. split; [reflexivity|]. split; [split; intros; congruence|]. split.
  - intros fw L. rewrite <- (set_up_eq _ _ _ E3) in L. rewrite <- map_map with (f := fst) (g := frequencies of_widths) in L. exact (proj1 (lists_map _ _ _ _ L)).
  - split; [split; reflexivity|]. intros; reflexivity.
Qed.
End Props.
Print Assumptions C141_quasiharmonic_partial.
Print Assumptions C141_thermal_volume.
Print Assumptions C141_density_plot_refuted.
Print Assumptions C141_band_gradient.
Print Assumptions C141_dispersions_partial.
Print Assumptions C141_mesh_refuted.

(** a polar crystal whose optical mode at the zone centre is raised by the correction; two volumes; the mesh and the band path share the zone centre *)
Definition ex_frequencies (ph : @phonon R unit) (q : vec) : list R := [0; ph_array ph + if ph_nac ph then 1 else 0].
Definition ex_dos (ph : @phonon R unit) (m : nat) (a b c : option R) : list R * list R := ([0; 1], ex_frequencies ph (V3 0 0 0)).
Definition ex_structure : @structure R unit := MkStruct (Some (MkFC 4 tt)) 4 2.
Definition ex_total (t v : R) : @constants R unit := MkFC (t + v) tt.
Definition ex_fit : @fitting R unit nat := qha_fitting ex_structure 2%nat [10; 11] [300; 310].
Example C141_nonvacuous_density :
  f_nac ex_fit = true /\ nth_error (f_volumes ex_fit) 1 = Some 11
  /\ plot_density_of_states ex_dos (fun _ _ _ _ => ([], [])) ex_total ex_fit 1 300 <> get_dos ex_dos (fun _ _ _ _ => ([], [])) ex_total ex_fit 300 11.
Proof.
  split; [reflexivity|]. split; [reflexivity|]. intros H.
  apply (proj1 (C141_density_plot_refuted ex_dos (fun _ _ _ _ => ([], [])) ex_total ex_fit 1 300 11 (MkPhonon 311 tt true) (MkPhonon 311 tt false) eq_refl eq_refl
      ltac:(unfold set_up, ex_total; cbn; repeat split; lra) ltac:(unfold set_up, ex_total; cbn; repeat split; lra) ltac:(cbn; lia) ltac:(cbn; lia))) in H.
  unfold ex_dos, ex_frequencies in H. cbn in H. injection H as H. lra.
Qed.
Definition ex_settings : @settings nat := MkSet true 1%nat [(V3 0 0 0, V3 (1/2) 0 0)] 1%nat.
Example C141_nonvacuous_mesh :
  exists bh br qs ws fr lw fm fp,
    dispersions ex_frequencies (map (map vx)) ex_settings ex_structure (MkFC 5 tt) = (bh, Some br)
    /\ get_mesh_frequencies_and_linewidths ex_frequencies (fun _ => [(V3 0 0 0, 1%nat)]) ex_settings (MkFC 5 tt) (MkFC 1 tt) = (qs, ws, fr, lw)
    /\ lists qs fr (V3 0 0 0) fm /\ band_lists br (V3 0 0 0) fp /\ fm <> fp.
Proof.
  do 6 eexists. exists [0; 5 + 0], [0; 5 + 1]. split; [reflexivity|]. split; [reflexivity|]. split; [exists 0%nat; split; reflexivity|]. split.
  - exists 0%nat. do 2 eexists. split; [reflexivity|]. split; [reflexivity|]. exists 0%nat. split; [|reflexivity].
    cbn. f_equal. unfold vadd, vscale, vsub. cbn. f_equal; ring.
  - intros H. injection H as H. lra.
Qed.
