(** C87: quasi-harmonic force constants (qha_extract).  C88: shifts as functions of volume and temperature (qha_quasiparticle.py). *)
From Verif Require Import Base QhaModel.
From Coq Require Import Lia Lra Sorting.Sorted.
Import List ListNotations.
Open Scope R_scope.

(** * specification *)
(** an interpolant through the given points *)
Definition through {Y} (interp : list (R * Y) -> R -> option Y) : Prop := forall l x y, NoDup (map fst l) -> In (x, y) l -> interp l x = Some y.
Definition ltb (a b : R) : bool := if Rlt_dec a b then true else false.
(** how many of the volumes are smaller *)
Definition smaller (volumes : list R) (v : R) : nat := List.length (filter (fun x => ltb x v) volumes).

(** * sorting *)
Lemma insert_perm v i l : Permutation (insert_index v i l) (i :: l).
Proof. induction l as [|j l IH]; cbn; [constructor; constructor|]. destruct (Rle_dec (v i) (v j)); [reflexivity|]. rewrite IH. apply perm_swap. Qed.
Lemma insert_sorted v i l : StronglySorted Rle (map v l) -> StronglySorted Rle (map v (insert_index v i l)).
Proof.
  induction l as [|j l IH]; intros H; cbn; [repeat constructor|]. cbn in H. inversion H as [|? ? Hs Hf]; subst. destruct (Rle_dec (v i) (v j)) as [L|L]; cbn.
  - constructor; [exact H|]. constructor; [exact L|]. eapply Forall_impl; [|exact Hf]. cbn. intros; lra.
  - constructor; [apply IH, Hs|]. assert (P := Permutation_map v (insert_perm v i l)). apply (Permutation_Forall (Permutation_sym P)). cbn. constructor; [lra|exact Hf].
Qed.
Lemma argsort_perm volumes : Permutation (argsort volumes) (seq 0 (List.length volumes)).
Proof. unfold argsort. induction (seq 0 (List.length volumes)) as [|i l IH]; cbn; [constructor|]. rewrite insert_perm. constructor. exact IH. Qed.
Lemma argsort_sorted volumes : StronglySorted Rle (map (fun i => nth i volumes 0) (argsort volumes)).
Proof. unfold argsort. induction (seq 0 (List.length volumes)) as [|i l IH]; cbn; [constructor|]. apply insert_sorted, IH. Qed.
Lemma map_nth_seq {A} (d : A) l : map (fun i => nth i l d) (seq 0 (List.length l)) = l.
Proof.
  apply nth_ext with d d; [rewrite map_length, seq_length; reflexivity|]. intros k Hk. rewrite map_length, seq_length in Hk.
  rewrite nth_indep with (d' := (fun i => nth i l d) 0%nat) by (rewrite map_length, seq_length; exact Hk). rewrite (map_nth (fun i => nth i l d)), seq_nth by exact Hk. reflexivity.
Qed.
Lemma taken_perm volumes : Permutation (take 0 volumes (argsort volumes)) volumes.
Proof. unfold take. rewrite (Permutation_map (fun i => nth i volumes 0) (argsort_perm volumes)), map_nth_seq. reflexivity. Qed.
Lemma filter_perm {A} (f : A -> bool) l l' : Permutation l l' -> Permutation (filter f l) (filter f l').
Proof. induction 1; cbn; [constructor|destruct (f x); [constructor|]; assumption|destruct (f x), (f y); try constructor; reflexivity|etransitivity; eassumption]. Qed.
Lemma strict l : StronglySorted Rle l -> NoDup l -> StronglySorted Rlt l.
Proof.
  induction 1 as [|x l Hs IH Hf]; intros N; constructor; inversion N as [|? ? Nx Nl]; subst; [apply IH, Nl|]. rewrite Forall_forall in *. intros y Hy. specialize (Hf y Hy).
  destruct Hf as [L|E]; [exact L|subst; contradiction].
Qed.
Lemma smaller_rank l : StronglySorted Rlt l -> forall p, (p < List.length l)%nat -> smaller l (nth p l 0) = p.
Proof.
  induction 1 as [|x l Hs IH Hf]; intros p Hp; cbn in Hp; [lia|]. rewrite Forall_forall in Hf. unfold smaller, ltb in *. destruct p as [|p]; cbn [nth filter].
  - destruct (Rlt_dec x x) as [L|_]; [lra|]. rewrite (proj2 (List.length_zero_iff_nil _)); [reflexivity|].
    apply length_zero_iff_nil. destruct (filter _ l) as [|y r] eqn:E; [reflexivity|exfalso]. assert (Y : In y (filter (fun y => if Rlt_dec y x then true else false) l)) by (rewrite E; left; reflexivity).
    apply filter_In in Y as [Y1 Y2]. specialize (Hf y Y1). destruct (Rlt_dec y x); [lra|discriminate].
  - assert (I : In (nth p l 0) l) by (apply nth_In; lia). specialize (Hf _ I). destruct (Rlt_dec x (nth p l 0)) as [_|N]; [|lra]. cbn [List.length]. f_equal. apply IH. lia.
Qed.
Lemma smaller_perm l l' v : Permutation l l' -> smaller l v = smaller l' v.
Proof. intros P. apply Permutation_length, filter_perm, P. Qed.

Lemma smaller_mono l a b : a <= b -> (smaller l a <= smaller l b)%nat.
Proof. intros H. unfold smaller, ltb. induction l as [|v l IH]; cbn; [lia|]. destruct (Rlt_dec v a), (Rlt_dec v b); cbn; try lia; lra. Qed.
Lemma pairwise l : (forall i j, (i < j)%nat -> (j < List.length l)%nat -> nth i l 0 < nth j l 0) -> StronglySorted Rlt l.
Proof.
  induction l as [|x l IH]; intros H; constructor.
  - apply IH. intros i j Hij Hj. apply (H (S i) (S j)); cbn; lia.
  - apply Forall_forall. intros y Hy. apply (In_nth l y 0) in Hy as (j & Hj & <-). apply (H 0%nat (S j)); cbn; lia.
Qed.
(** C87.  The quasi-harmonic analysis itself is fed consistently, whatever the order of the files: for some order s of the systems, with
    increasing volumes, volume, energy and every column of the thermal tables belong to the same system. *)
Theorem C87_thermal_data :
  forall qha interp (volumes energies : list R) (tp : list (list row)) (target : R), List.length tp = List.length volumes ->
  exists s : list nat, Permutation s (seq 0 (List.length volumes)) /\
  StronglySorted Rle (map (fun i => nth i volumes 0) s) /\
  let row_of get k := map (fun i => get (nth k (nth i tp []) (MkR 0 0 0 0))) s in
  let rows get := map (row_of get) (seq 0 (List.length (hd [] tp))) in
  let vt := qha (map (fun i => nth i volumes 0) s) (map (fun i => nth i energies 0) s) (map t_temperature (last tp [])) (rows t_free) (rows t_cv) (rows t_entropy) in
  equilibrium_volume qha interp volumes energies tp target = interp (combine (firstn (List.length vt) (map t_temperature (last tp []))) vt) target.
Proof.
  intros qha interp volumes energies tp target Hlen. exists (argsort volumes). split; [apply argsort_perm|]. split; [apply argsort_sorted|]. intros row_of rows vt.
  assert (T : forall get, table get tp (argsort volumes) = rows get).
  { intros get. unfold table, rows, row_of, take. apply map_ext. intros k. apply map_ext_in. intros i Hi. apply (Permutation_in i (argsort_perm volumes)) in Hi. apply in_seq in Hi.
    rewrite nth_indep with (d' := (fun f => get (nth k f (MkR 0 0 0 0))) []) by (rewrite map_length; lia).
    exact (map_nth (fun f => get (nth k f (MkR 0 0 0 0))) tp [] i). }
  unfold equilibrium_volume. rewrite !T. reflexivity.
Qed.
Print Assumptions C87_thermal_data.
(** The force constants written: when the equilibrium volume found is the volume of system i, the ones written are not those of file i but
    those of the file whose place is the rank of that volume. *)
Theorem C87_rank :
  forall (FC : Type) qha (interp_fc : list (R * FC) -> R -> option FC) interp (volumes energies : list R) (tp : list (list row)) (fc : list FC) (target : R) (i : nat),
  through interp_fc -> NoDup volumes -> List.length fc = List.length volumes -> (i < List.length volumes)%nat ->
  equilibrium_volume qha interp volumes energies tp target = Some (nth i volumes 0) ->
  extract qha interp_fc interp volumes energies tp fc target = nth_error fc (smaller volumes (nth i volumes 0)).
Proof.
  intros FC qha ifc interp volumes energies tp fc target i T N L Hi Ht. unfold extract. rewrite Ht. set (vs := take 0 volumes (argsort volumes)).
  assert (P : Permutation vs volumes) by apply taken_perm. assert (S : StronglySorted Rlt vs) by (apply strict; [apply argsort_sorted|apply (Permutation_NoDup (Permutation_sym P) N)]).
  assert (I : In (nth i volumes 0) vs) by (apply (Permutation_in _ (Permutation_sym P)), nth_In, Hi). apply (In_nth vs _ 0) in I as (p & Hp & E).
  rewrite <- (smaller_perm _ _ _ P), <- E, (smaller_rank _ S p Hp). assert (Lv := Permutation_length P).
  destruct (nth_error fc p) as [f|] eqn:F; [|apply nth_error_None in F; lia]. apply T.
  - assert (C : map fst (combine vs fc) = vs) by (clearbody vs; clear -L Lv; revert fc L; rewrite <- Lv; clear Lv; induction vs as [|v l IH]; intros [|g fc] L; cbn in *; try discriminate; [reflexivity|f_equal; apply IH; lia]).
    rewrite C. apply (Permutation_NoDup (Permutation_sym P) N).
  - clearbody vs. clear -Hp F. revert vs fc Hp F. induction p as [|p IH]; intros [|v vs] [|g fc] Hp F; cbn in *; try lia; try discriminate; [injection F as ->; left; reflexivity|right; apply IH; [lia|exact F]].
Qed.
Print Assumptions C87_rank.
(** So they are the right ones when the volumes are listed in increasing order, *)
Theorem C87_increasing_partial :
  forall (FC : Type) qha (interp_fc : list (R * FC) -> R -> option FC) interp (volumes energies : list R) (tp : list (list row)) (fc : list FC) (target : R) (i : nat),
  through interp_fc -> StronglySorted Rlt volumes -> List.length fc = List.length volumes -> (i < List.length volumes)%nat ->
  equilibrium_volume qha interp volumes energies tp target = Some (nth i volumes 0) ->
  extract qha interp_fc interp volumes energies tp fc target = nth_error fc i.
Proof.
  intros FC qha ifc interp volumes energies tp fc target i T S L Hi Ht. transitivity (nth_error fc (smaller volumes (nth i volumes 0))); [|rewrite (smaller_rank volumes S i Hi); reflexivity]. apply C87_rank; try assumption.
  clear -S. induction S as [|x l S IH F]; constructor; [|exact IH]. intros I. rewrite Forall_forall in F. specialize (F x I). lra.
Qed.
Print Assumptions C87_increasing_partial.
(** and wrong for some system whenever they are not: every list of different volumes that is not increasing, with different force constants. *)
Theorem C87_order_refuted :
  forall (FC : Type) qha (interp_fc : list (R * FC) -> R -> option FC) (volumes energies : list R) (tp : list (list row)) (fc : list FC),
  through interp_fc -> NoDup volumes -> NoDup fc -> List.length fc = List.length volumes -> ~ StronglySorted Rlt volumes ->
  exists i, (i < List.length volumes)%nat /\ forall interp target, equilibrium_volume qha interp volumes energies tp target = Some (nth i volumes 0) ->
  extract qha interp_fc interp volumes energies tp fc target <> nth_error fc i.
Proof.
  intros FC qha ifc volumes energies tp fc T N Nf L NS.
  assert (X : exists i, (i < List.length volumes)%nat /\ smaller volumes (nth i volumes 0) <> i).
  { destruct (List.Exists_dec (fun i => smaller volumes (nth i volumes 0) <> i) (seq 0 (List.length volumes))) as [E|E].
    - intros i. destruct (Nat.eq_dec (smaller volumes (nth i volumes 0)) i); [right; congruence|left; assumption].
    - apply Exists_exists in E as (i & Hi & Hn). apply in_seq in Hi. exists i. split; [lia|exact Hn].
    - exfalso. apply NS. assert (A : forall i, (i < List.length volumes)%nat -> smaller volumes (nth i volumes 0) = i).
      { intros i Hi. destruct (Nat.eq_dec (smaller volumes (nth i volumes 0)) i) as [e|n]; [exact e|]. exfalso. apply E. apply Exists_exists. exists i. split; [apply in_seq; lia|exact n]. }
      assert (Q : forall i j, (i < j)%nat -> (j < List.length volumes)%nat -> nth i volumes 0 < nth j volumes 0).
      { intros i j Hij Hj. destruct (Rlt_dec (nth i volumes 0) (nth j volumes 0)) as [l|l]; [exact l|exfalso].
        assert (M : (smaller volumes (nth j volumes 0%R) <= smaller volumes (nth i volumes 0%R))%nat).
        { apply smaller_mono. lra. }
        rewrite !A in M by lia. lia. }
      apply pairwise, Q. }
  destruct X as (i & Hi & Hn). exists i. split; [exact Hi|]. intros interp target Ht. rewrite (C87_rank FC qha ifc interp volumes energies tp fc target i T N L Hi Ht).
  intros E. apply Hn. rewrite NoDup_nth_error in Nf. symmetry. apply Nf; [lia|symmetry; exact E].
Qed.
Print Assumptions C87_order_refuted.
Example C87_nonvacuous :
  let interp_fc (l : list (R * nat)) x := option_map snd (find (fun p => if Req_EM_T (fst p) x then true else false) l) in
  through interp_fc /\
  (forall qha target, equilibrium_volume qha (fun _ _ => Some 3) [3; 2; 1] [0; 0; 0] [[]; []; []] target = Some (nth 0 [3; 2; 1] 0)) /\
  smaller [3; 2; 1] 3 = 2%nat.
Proof.
  intros f. split; [|split].
  - intros l x y N H. unfold f. induction l as [|[a b] l IH]; [contradiction|]. cbn. cbn in N. inversion N as [|? ? Na Nl]; subst. destruct H as [H|H].
    + injection H as -> ->. destruct (Req_EM_T x x); [reflexivity|contradiction].
    + destruct (Req_EM_T a x) as [->|_]; [exfalso; apply Na; apply (in_map fst) in H; exact H|apply IH; assumption].
  - reflexivity.
  - unfold smaller, ltb. cbn. destruct (Rlt_dec 3 3), (Rlt_dec 2 3), (Rlt_dec 1 3); try lra; reflexivity.
Qed.

(** * C88 *)
(** At the reference temperature and a tabulated volume, the frequencies used are exactly those of that volume's file. *)
Theorem C88_reference :
  forall polyfit interp (f : fitting) (i : nat) (v : R) (file : table2) (q b : nat),
  through interp -> NoDup (f_volumes f) -> List.length (f_files_v f) = List.length (f_volumes f) ->
  nth_error (f_volumes f) i = Some v -> nth_error (f_files_v f) i = Some file ->
  total_frequency polyfit interp f (f_reference f) (Some v) q b = Some (file q b).
Proof.
  intros polyfit interp f i v file q b T N L Hv Hf. unfold total_frequency, get_total_shifts, interpolated_v. rewrite (T _ v (file q b - reference polyfit f q b)).
  - cbn. unfold reference. f_equal. ring.
  - assert (C : map fst (combine (f_volumes f) (shifts_v polyfit f q b)) = f_volumes f); [|rewrite C; exact N]. unfold shifts_v. revert L. generalize (f_files_v f). generalize (f_volumes f).
    induction l as [|x l IH]; intros [|g l'] L; cbn in *; try discriminate; [reflexivity|f_equal; apply IH; lia].
  - unfold shifts_v. assert (M := map_nth_error (fun file : table2 => file q b - reference polyfit f q b) i _ Hf). revert Hv M. generalize (map (fun file : table2 => file q b - reference polyfit f q b) (f_files_v f)).
    generalize (f_volumes f). clear. induction i as [|i IH]; intros [|x l] [|y l'] A B; cbn in *; try discriminate; [injection A as ->; injection B as ->; left; reflexivity|right; exact (IH _ _ A B)].
Qed.
Print Assumptions C88_reference.
(** At a volume whose file has the fitted frequencies at the reference temperature, every temperature gives the curve fitted to the
    temperature files; so if that curve goes through the point of file j, the frequencies used at its temperature are those of file j. *)
Theorem C88_temperature :
  forall polyfit interp (f : fitting) (i j : nat) (v t : R) (file filet : table2) (q b : nat),
  through interp -> NoDup (f_volumes f) -> List.length (f_files_v f) = List.length (f_volumes f) ->
  nth_error (f_volumes f) i = Some v -> nth_error (f_files_v f) i = Some file ->
  let shifts := map (fun g : table2 => g q b - f_harmonic f q b) (f_files_t f) in
  let curve := polyfit (f_temperatures f) shifts (f_order f) in
  file q b = f_harmonic f q b + curve (f_reference f) ->
  (forall temperature, total_frequency polyfit interp f temperature (Some v) q b = Some (f_harmonic f q b + curve temperature)) /\
  (nth_error (f_files_t f) j = Some filet -> curve t = filet q b - f_harmonic f q b -> total_frequency polyfit interp f t (Some v) q b = Some (filet q b)).
Proof.
  intros polyfit interp f i j v t file filet q b T N L Hv Hf shifts curve He.
  assert (A : forall temperature, total_frequency polyfit interp f temperature (Some v) q b = Some (f_harmonic f q b + curve temperature)).
  { intros temperature. assert (R0 := C88_reference polyfit interp f i v file q b T N L Hv Hf). unfold total_frequency, get_total_shifts in *.
    destruct (interpolated_v polyfit interp f v q b) as [s|]; [|discriminate]. cbn in *. injection R0 as R0. unfold fitted_t, shifts_t in *. fold shifts in R0 |- *. fold curve in R0 |- *. f_equal. lra. }
  split; [exact A|]. intros Hj Hc. rewrite A, Hc. f_equal. ring.
Qed.
Print Assumptions C88_temperature.
(** No volume given: the first one. *)
Theorem C88_default_volume :
  forall polyfit interp (f : fitting) (v : R) (rest : list R) temperature it iv (q b : nat), f_volumes f = v :: rest ->
  get_total_shifts polyfit interp f None temperature it iv q b = get_total_shifts polyfit interp f (Some v) temperature it iv q b.
Proof. intros polyfit interp f v rest temperature it iv q b E. unfold get_total_shifts. rewrite E. reflexivity. Qed.
Print Assumptions C88_default_volume.
(** with interpolate_temperature the shift at a tabulated temperature is the tabulated one, whatever the polynomial says: at a tabulated volume the total
    shift is the sum of the two tabulated shifts *)
Theorem C88_interpolate_temperature :
  forall polyfit interp (f : fitting) (i j : nat) (v t : R) (filev filet : table2) (q b : nat),
  through interp -> NoDup (f_volumes f) -> List.length (f_files_v f) = List.length (f_volumes f) -> NoDup (f_temperatures f) -> List.length (f_files_t f) = List.length (f_temperatures f) ->
  nth_error (f_volumes f) i = Some v -> nth_error (f_files_v f) i = Some filev -> nth_error (f_temperatures f) j = Some t -> nth_error (f_files_t f) j = Some filet ->
  get_total_shifts polyfit interp f (Some v) t true false q b =
    Some ((filet q b - f_harmonic f q b) + (filev q b - (f_harmonic f q b + polyfit (f_temperatures f) (map (fun g : table2 => g q b - f_harmonic f q b) (f_files_t f)) (f_order f) (f_reference f)))).
Proof.
  intros polyfit interp f i j v t filev filet q b T N L N' L' Hv Hf Ht Hg. assert (R0 := C88_reference polyfit interp f i v filev q b T N L Hv Hf). unfold total_frequency, get_total_shifts in *.
  destruct (interpolated_v polyfit interp f v q b) as [s|]; [|discriminate]. cbn in R0. apply (f_equal (fun o => match o with Some x => x | None => 0 end)) in R0.
  unfold interpolated_t. rewrite (T _ t (filet q b - f_harmonic f q b)).
  - f_equal. unfold fitted_t, shifts_t in R0. lra.
  - assert (C : map fst (combine (f_temperatures f) (shifts_t f q b)) = f_temperatures f); [|rewrite C; exact N']. unfold shifts_t. revert L'. generalize (f_files_t f). generalize (f_temperatures f).
    induction l as [|x l IH]; intros [|g l'] E; cbn in *; try discriminate; [reflexivity|f_equal; apply IH; lia].
  - unfold shifts_t. assert (M := map_nth_error (fun file : table2 => file q b - f_harmonic f q b) j _ Hg). revert Ht M. generalize (map (fun file : table2 => file q b - f_harmonic f q b) (f_files_t f)).
    generalize (f_temperatures f). clear. induction j as [|j IH]; intros [|x l] [|y l'] A B; cbn in *; try discriminate; [injection A as ->; injection B as ->; left; reflexivity|right; exact (IH _ _ A B)].
Qed.
Print Assumptions C88_interpolate_temperature.
(** interpolate_volume does the opposite of what it says: without it the volume shifts are interpolated (and at a tabulated volume are the
    tabulated ones), with it the fitted polynomial is used. *)
Theorem C88_interpolate_volume_refuted :
  forall polyfit interp (f : fitting) (i : nat) (v t : R) (file : table2) (q b : nat),
  through interp -> NoDup (f_volumes f) -> List.length (f_files_v f) = List.length (f_volumes f) ->
  nth_error (f_volumes f) i = Some v -> nth_error (f_files_v f) i = Some file ->
  let tabulated := map (fun g : table2 => g q b - reference polyfit f q b) (f_files_v f) in
  exists st, get_total_shifts polyfit interp f (Some v) t false false q b = Some (st + (file q b - reference polyfit f q b)) /\
  get_total_shifts polyfit interp f (Some v) t false true q b = Some (st + polyfit (f_volumes f) tabulated (f_order f) v).
Proof.
  intros polyfit interp f i v t file q b T N L Hv Hf tabulated. assert (R0 := C88_reference polyfit interp f i v file q b T N L Hv Hf). unfold total_frequency, get_total_shifts in *.
  exists (fitted_t polyfit f t q b). destruct (interpolated_v polyfit interp f v q b) as [s|]; [|discriminate]. cbn in *. injection R0 as R0. split; [|reflexivity]. f_equal. unfold reference. lra.
Qed.
Print Assumptions C88_interpolate_volume_refuted.
(** Temperatures of the analysis: exactly tmin, tmin + 10, ... below tmax; *)
Lemma arange_from_in step stop : 0 < step -> forall fuel start, (stop - start) / step < INR fuel + 1 ->
  forall x, In x (arange_from fuel start stop step) <-> exists k : nat, (k < fuel)%nat /\ x = start + INR k * step /\ x < stop.
Proof.
  intros Hs. induction fuel as [|fuel IH]; intros start Hf x; cbn [arange_from].
  - split; [intros []|]. intros (k & Hk & _). lia.
  - destruct (Rlt_dec start stop) as [L|L].
    + assert (B : (stop - (start + step)) / step < INR fuel + 1) by (rewrite S_INR in Hf; replace ((stop - (start + step)) / step) with ((stop - start) / step - 1) by (field; lra); lra).
      cbn [In]. rewrite (IH (start + step) B x). split.
      * intros [<-|(k & Hk & -> & Hx)]; [exists 0%nat; split; [lia|]; cbn; split; [ring|exact L]|]. exists (S k). rewrite S_INR. split; [lia|]. split; [ring|exact Hx].
      * intros ([|k] & Hk & -> & Hx); [left; cbn; ring|right]. exists k. rewrite S_INR in *. split; [lia|]. split; [ring|lra].
    + split; [intros []|]. intros (k & Hk & -> & Hx). assert (0 <= INR k * step) by (apply Rmult_le_pos; [apply pos_INR|lra]). lra.
Qed.
Theorem C88_temperatures_partial :
  forall (f : fitting) (tmin tmax : R), f_tmin f = Some tmin -> f_tmax f = Some tmax ->
  forall x, In x (get_temperature_range f) <-> exists k : nat, x = tmin + INR k * 10 /\ x < tmax.
Proof.
  intros f tmin tmax E1 E2 x. unfold get_temperature_range. rewrite E1, E2. unfold arange_len. assert (A := archimed ((tmax - tmin) / 10)).
  assert (U : INR (Z.to_nat (up ((tmax - tmin) / 10))) = IZR (Z.max 0 (up ((tmax - tmin) / 10)))).
  { rewrite INR_IZR_INZ. f_equal. lia. }
  rewrite arange_from_in; [|lra|].
  - split; [intros (k & _ & H); exists k; exact H|]. intros (k & -> & H). exists k. split; [|split; [reflexivity|exact H]].
    apply INR_lt. rewrite U. assert (IZR (up ((tmax - tmin) / 10)) <= IZR (Z.max 0 (up ((tmax - tmin) / 10)))) by (apply IZR_le; lia). lra.
  - rewrite U. assert (IZR (up ((tmax - tmin) / 10)) <= IZR (Z.max 0 (up ((tmax - tmin) / 10)))) by (apply IZR_le; lia). lra.
Qed.
Print Assumptions C88_temperatures_partial.
(** so the highest temperature given, or by default the highest tabulated one, is never among them. *)
Theorem C88_last_temperature_refuted :
  forall (f : fitting) (tmin : R), f_tmin f = Some tmin ->
  (forall tmax, f_tmax f = Some tmax -> ~ In tmax (get_temperature_range f)) /\
  (f_tmax f = None -> ~ In (last (f_temperatures f) 0) (get_temperature_range f)).
Proof.
  intros f tmin E1. split.
  - intros tmax E2 H. apply (C88_temperatures_partial f tmin tmax E1 E2) in H as (k & _ & H). lra.
  - intros E2 H. set (g := MkF (f_harmonic f) (f_temperatures f) (f_files_t f) (f_volumes f) (f_files_v f) (f_reference f) (f_order f) (f_tmin f) (Some (last (f_temperatures f) 0))).
    assert (G : get_temperature_range f = get_temperature_range g) by (unfold get_temperature_range, g; cbn; rewrite E2; reflexivity). rewrite G in H.
    apply (C88_temperatures_partial g tmin (last (f_temperatures f) 0) E1 eq_refl) in H as (k & _ & H). lra.
Qed.
Print Assumptions C88_last_temperature_refuted.
(** Without BANDS in the input file the program stops with an exception instead of using the automatic path. *)
Theorem C88_automatic_path_refuted :
  forall (B : Type) (p : list (string * B)) (automatic : B), (forall v, ~ In ("_band_ranges"%string, v) p) -> band_choice p automatic = None.
Proof.
  intros B p automatic H. unfold band_choice. rewrite Bool.andb_false_r. unfold lookup. destruct (find _ p) as [[k v]|] eqn:E; [|reflexivity].
  exfalso. apply find_some in E as [I E]. cbn in E. apply String.eqb_eq in E. subst k. exact (H v I).
Qed.
Print Assumptions C88_automatic_path_refuted.
(** two volumes, two temperatures; a fit that is always zero differs from the tabulated shift *)
Example C88_nonvacuous :
  let interp (l : list (R * R)) x := option_map snd (find (fun p => if Req_EM_T (fst p) x then true else false) l) in
  let f := MkF (fun _ _ => 5) [100; 200] [(fun _ _ => 5); (fun _ _ => 4)] [10; 11] [(fun _ _ => 5); (fun _ _ => 3)] 100 1 (Some 100) None in
  NoDup (f_volumes f) /\ total_frequency (fun _ _ _ _ => 0) interp f 100 (Some 11) 0 0 = Some 3 /\
  get_total_shifts (fun _ _ _ _ => 0) interp f (Some 11) 100 false true 0 0 = Some 0.
Proof.
  intros interp f. split; [|split].
  - cbn. constructor; [intros [E|[]]; lra|]. constructor; [intros []|constructor].
  - unfold total_frequency, get_total_shifts, interpolated_v, interp. cbn. destruct (Req_EM_T 10 11) as [E|_]; [lra|]. destruct (Req_EM_T 11 11) as [_|N]; [|contradiction]. cbn. unfold reference, fitted_t. cbn. f_equal. ring.
  - unfold get_total_shifts, fitted_t, fitted_v. cbn. f_equal. ring.
Qed.
