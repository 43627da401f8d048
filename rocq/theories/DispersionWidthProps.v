(** C142: the linewidths listed with the renormalized dispersion relations. *)
From Coq Require Import Reals List Lia Lra Permutation Sorting.Sorted.
From Verif Require Import PhonopyLinkModel MeshModel MeshProps DispersionWidthModel.
Import List ListNotations.
Open Scope R_scope.

(** ---------- specification ---------- *)
(** the modes keep their order when half the linewidth is added or subtracted *)
Definition well_separated (modes : list (R * R)) : Prop :=
  forall m m', In m modes -> In m' modes -> fst m <= fst m' -> Rabs (snd m - snd m') <= 2 * (fst m' - fst m).
Definition total (l : list R) : R := fold_right Rplus 0 l.
(** every branch at least as high *)
Definition below (a b : list R) : Prop := Forall2 Rle a b.

(** ---------- sorting ---------- *)
Lemma abs_bounds x y : Rabs x <= y -> - y <= x <= y.
Proof. intros H. pose proof (Rle_abs x). pose proof (Rle_abs (- x)). rewrite Rabs_Ropp in *. lra. Qed.
Lemma insert_head x l : StronglySorted Rle (x :: l) -> insert x l = x :: l.
Proof. intros H. destruct l as [|y l]; [reflexivity|]. cbn. destruct (Rle_dec x y) as [|N]; [reflexivity|]. exfalso. apply N. inversion H as [|? ? _ F]; subst. inversion F; assumption. Qed.
Lemma insert_below : forall l l' x y, StronglySorted Rle l -> StronglySorted Rle l' -> below l l' -> x <= y -> below (insert x l) (insert y l').
Proof.
  unfold below. induction l as [|a l IH]; intros l' x y S S' B L; inversion B as [|? b ? l'' AB B']; subst; cbn; [constructor; [exact L|constructor]|].
  pose proof (insert_head _ _ S) as Ha. pose proof (insert_head _ _ S') as Hb. inversion S as [|? ? S1 _]; subst. inversion S' as [|? ? S1' _]; subst.
  destruct (Rle_dec x a), (Rle_dec y b).
  - constructor; [lra|]. constructor; assumption.
  - constructor; [lra|]. rewrite <- Ha. apply IH; try assumption. lra.
  - constructor; [lra|]. rewrite <- Hb. apply IH; try assumption. lra.
  - constructor; [lra|]. apply IH; assumption.
Qed.
Lemma ascending_below l l' : below l l' -> below (ascending l) (ascending l').
Proof. induction 1 as [|x y l l' L B IH]; cbn; [constructor|]. apply insert_below; try apply ascending_sorted; assumption. Qed.
Lemma total_perm l l' : Permutation l l' -> total l = total l'.
Proof. unfold total. induction 1; cbn; lra. Qed.
Lemma total_differences : forall a b, List.length a = List.length b -> total (differences a b) = total a - total b.
Proof. induction a as [|x a IH]; intros [|y b] H; cbn in H; try discriminate; [cbn; lra|]. specialize (IH b ltac:(lia)). unfold differences, total in *. cbn. rewrite IH. lra. Qed.
Lemma differences_modes l : differences (map (fun m : R * R => fst m + snd m / 2) l) (map (fun m => fst m - snd m / 2) l) = map snd l.
Proof. induction l as [|m l IH]; cbn; [reflexivity|]. unfold differences in IH. rewrite IH. f_equal. lra. Qed.
Lemma order_modes (l : list (R * R)) : exists l', Permutation l l' /\ StronglySorted (fun a b => fst a <= fst b) l'.
Proof.
  induction l as [|m l (r & P & S)]; [exists []; split; constructor|].
  assert (I : exists r', Permutation (m :: r) r' /\ StronglySorted (fun a b => fst a <= fst b) r').
  { clear P l. induction S as [|a r S (r' & P & S') F]; [exists [m]; split; repeat constructor|]. destruct (Rle_dec (fst m) (fst a)) as [L|L].
    - exists (m :: a :: r). split; [reflexivity|]. constructor; [constructor; assumption|]. constructor; [exact L|]. eapply Forall_impl; [|exact F]. cbn. intros; lra.
    - exists (a :: r'). split; [rewrite perm_swap; constructor; exact P|]. constructor; [exact S'|]. apply (Permutation_Forall P). constructor; [lra|exact F]. }
  destruct I as (r' & P' & S'). exists r'. split; [rewrite P; exact P'|exact S'].
Qed.

Section Unit.
Context (u : R) (Hu : 0 < u).
Lemma values_ascending l : mesh_values u l = ascending l.
Proof.
  apply sorted_unique; [apply (mesh_values_sorted u Hu)|apply ascending_sorted|].
  rewrite (mesh_values_perm u Hu l). symmetry. apply ascending_perm.
Qed.
Lemma values_below l l' : below l l' -> below (mesh_values u l) (mesh_values u l').
Proof. rewrite !values_ascending. apply ascending_below. Qed.
Lemma values_perm l l' : Permutation l l' -> mesh_values u l = mesh_values u l'.
Proof.
  intros P. apply sorted_unique; try apply (mesh_values_sorted u Hu). rewrite (mesh_values_perm u Hu l), (mesh_values_perm u Hu l'). exact P.
Qed.

(** whatever the linewidths: the frequencies listed are the fitted ones and the two edges are the fitted frequencies plus and minus half the
    linewidths, each in ascending order; the linewidths listed have the same sum as the fitted ones; if no fitted linewidth is negative none of
    those listed is, and the frequencies lie between the edges *)
Theorem C142_edges_partial (modes : list (R * R)) :
  let e := dispersion_entry u modes in
  (Permutation (l_frequencies e) (map fst modes) /\ StronglySorted Rle (l_frequencies e))
  /\ (Permutation (l_plus e) (map (fun m => fst m + snd m / 2) modes) /\ StronglySorted Rle (l_plus e))
  /\ (Permutation (l_minus e) (map (fun m => fst m - snd m / 2) modes) /\ StronglySorted Rle (l_minus e))
  /\ List.length (l_linewidth e) = List.length modes
  /\ total (l_linewidth e) = total (map snd modes)
  /\ ((forall m, In m modes -> 0 <= snd m) ->
      (forall w, In w (l_linewidth e) -> 0 <= w) /\ below (l_minus e) (l_frequencies e) /\ below (l_frequencies e) (l_plus e)).
Proof.
  intros e. subst e. unfold dispersion_entry. cbn [l_frequencies l_plus l_minus l_linewidth].
  assert (LP : List.length (mesh_values u (map (fun m : R * R => fst m + snd m / 2) modes)) = List.length modes).
  { rewrite (Permutation_length (mesh_values_perm u Hu _)), map_length. reflexivity. }
  assert (LM : List.length (mesh_values u (map (fun m : R * R => fst m - snd m / 2) modes)) = List.length modes).
  { rewrite (Permutation_length (mesh_values_perm u Hu _)), map_length. reflexivity. }
  split; [split; [apply (mesh_values_perm u Hu)|apply (mesh_values_sorted u Hu)]|].
  split; [split; [apply (mesh_values_perm u Hu)|apply (mesh_values_sorted u Hu)]|].
  split; [split; [apply (mesh_values_perm u Hu)|apply (mesh_values_sorted u Hu)]|].
  split; [unfold differences; rewrite map_length, combine_length, LP, LM; apply Nat.min_id|].
  split.
  { rewrite total_differences by congruence. rewrite !(total_perm _ _ (mesh_values_perm u Hu _)). rewrite <- total_differences by (rewrite !map_length; reflexivity).
    rewrite differences_modes. reflexivity. }
  intros W.
  assert (B1 : below (map (fun m : R * R => fst m - snd m / 2) modes) (map fst modes)).
  { unfold below. clear LP LM. induction modes as [|m l IH]; cbn; constructor; [specialize (W m (or_introl eq_refl)); lra|apply IH; intros x Hx; apply W; right; exact Hx]. }
  assert (B2 : below (map fst modes) (map (fun m : R * R => fst m + snd m / 2) modes)).
  { unfold below. clear LP LM B1. induction modes as [|m l IH]; cbn; constructor; [specialize (W m (or_introl eq_refl)); lra|apply IH; intros x Hx; apply W; right; exact Hx]. }
  apply values_below in B1. apply values_below in B2. split; [|split; assumption].
  revert B1 B2. generalize (mesh_values u (map (fun m : R * R => fst m - snd m / 2) modes)), (mesh_values u (map (fun m : R * R => fst m + snd m / 2) modes)), (mesh_values u (map fst modes)).
  clear. intros a b c B1. unfold below in *. revert b. induction B1 as [|x y a c L B1 IH]; intros b B2 w Hw; inversion B2 as [|? z ? b' L' B2']; subst; cbn in Hw; [destruct Hw|].
  destruct Hw as [<-|Hw]; [lra|]. exact (IH _ B2' w Hw).
Qed.

(** if the modes keep their order, each frequency listed has its own fitted linewidth and its own edges *)
Theorem C142_own_partial (modes : list (R * R)) :
  well_separated modes ->
  exists order, Permutation order modes /\ dispersion_entry u modes =
    MkL (map fst order) (map (fun m => fst m - snd m / 2) order) (map (fun m => fst m + snd m / 2) order) (map snd order).
Proof.
  intros W. destruct (order_modes modes) as (l & P & S). exists l. split; [symmetry; exact P|].
  assert (Wl : well_separated l). { intros m m' H H'. apply W; eapply Permutation_in; try eassumption; symmetry; exact P. }
  unfold dispersion_entry. rewrite !(values_perm _ _ (Permutation_map _ P)).
  assert (Q : forall g : R * R -> R, (forall m m', In m l -> In m' l -> fst m <= fst m' -> g m <= g m') -> mesh_values u (map g l) = map g l).
  { intros g G. apply (mesh_values_id u Hu). clear P W Wl. induction S as [|m r S IH F]; cbn; constructor.
    - apply IH. intros m1 m2 H1 H2. apply G; right; assumption.
    - rewrite Forall_forall in *. intros y Hy. apply in_map_iff in Hy as (z & <- & Hz). apply G; [left; reflexivity|right; exact Hz|exact (F z Hz)]. }
  rewrite (Q fst), (Q (fun m => fst m + snd m / 2)), (Q (fun m => fst m - snd m / 2)).
  - rewrite differences_modes. reflexivity.
  - intros m m' H H' L. specialize (Wl m m' H H' L). apply abs_bounds in Wl. lra.
  - intros m m' H H' L. specialize (Wl m m' H H' L). apply abs_bounds in Wl. lra.
  - intros m m' _ _ L. exact L.
Qed.

(** for two modes this is exact: if one linewidth exceeds the other by more than twice the distance of the frequencies, neither branch is listed
    with the linewidth of any mode *)
Theorem C142_crossing_refuted (f1 f2 w1 w2 : R) :
  f1 < f2 ->
  (l_linewidth (dispersion_entry u [(f1, w1); (f2, w2)]) = [w1; w2] <-> Rabs (w1 - w2) <= 2 * (f2 - f1))
  /\ (2 * (f2 - f1) < Rabs (w1 - w2) -> exists a b, l_linewidth (dispersion_entry u [(f1, w1); (f2, w2)]) = [a; b] /\
        l_frequencies (dispersion_entry u [(f1, w1); (f2, w2)]) = [f1; f2] /\ a <> w1 /\ a <> w2 /\ b <> w1 /\ b <> w2).
Proof.
  intros F. unfold dispersion_entry. cbn [l_linewidth l_frequencies]. rewrite !values_ascending. cbn [map fst snd]. unfold ascending. cbn [fold_right insert].
  destruct (Rle_dec f1 f2) as [_|]; [|lra].
  destruct (Rle_dec (f1 + w1 / 2) (f2 + w2 / 2)) as [A|A], (Rle_dec (f1 - w1 / 2) (f2 - w2 / 2)) as [B|B]; unfold differences; cbn [combine map fst snd].
  - split; [split; [intros _; apply Rabs_le; lra|intros _; repeat f_equal; lra]|]. intros H. exfalso. apply (Rlt_not_le _ _ H). apply Rabs_le. lra.
  - split; [split; [intros H; injection H; intros; lra|intros H; apply abs_bounds in H; lra]|].
    intros _. do 2 eexists. split; [reflexivity|]. split; [reflexivity|]. repeat split; lra.
  - split; [split; [intros H; injection H; intros; lra|intros H; apply abs_bounds in H; lra]|].
    intros _. do 2 eexists. split; [reflexivity|]. split; [reflexivity|]. repeat split; lra.
  - exfalso. lra.
Qed.
End Unit.
Print Assumptions C142_edges_partial.
Print Assumptions C142_own_partial.
Print Assumptions C142_crossing_refuted.

(** two separated modes given in descending order, and a broad acoustic mode close to a sharp optical one *)
Example C142_nonvacuous_own : well_separated [(5, 1/2); (3, 1/4)].
Proof. intros m m' [<-|[<-|[]]] [<-|[<-|[]]]; cbn; intros H; try lra; apply Rabs_le; lra. Qed.
Example C142_nonvacuous_crossing : 3 < 3.1 /\ 2 * (3.1 - 3) < Rabs (0.5 - 0.1).
Proof. split; [lra|]. rewrite Rabs_right; lra. Qed.
Example C142_nonvacuous_values : l_linewidth (dispersion_entry 15.6 [(3, 0.5); (3.1, 0.1)]) = [0.4; 0.2].
Proof.
  unfold dispersion_entry. cbn [l_linewidth]. rewrite !(values_ascending 15.6 ltac:(lra)). cbn [map fst snd]. unfold ascending. cbn [fold_right insert].
  destruct (Rle_dec (3 + 0.5 / 2) (3.1 + 0.1 / 2)) as [A|_]; [lra|]. destruct (Rle_dec (3 - 0.5 / 2) (3.1 - 0.1 / 2)) as [_|B]; [|lra].
  unfold differences. cbn. repeat f_equal; lra.
Qed.
