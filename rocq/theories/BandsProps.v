(** C77: branches of the renormalized dispersion relations; C78: branches across the stretches of a path; C79: tick labels. *)
From Coq Require Import Lra Lia.
From Verif Require Import BandsModel BandsSpec BandsProofs ProjectionProofs.
Open Scope R_scope.

(** one entry per stretch; its ends and labels are the requested ones; the shift is renormalized minus harmonic and the linewidth plus minus
    minus, branch by branch and point by point; the linewidth keys are there exactly when asked for *)
Theorem C77_entries : forall m (point FC : Type) (dispersion : option FC -> bool -> list segment) rfc fr lw (ranges : list (point * point)) labels wl ic bc,
  (forall fc, List.length (dispersion fc bc) = List.length ranges) -> (forall l, labels = Some l -> List.length l = List.length ranges) ->
  exists out, get_renormalized_phonon_dispersion_bands m dispersion rfc fr lw ranges labels wl ic bc = Some out /\ List.length out = List.length ranges /\
  forall i d, nth_error out i = Some d ->
    nth_error ranges i = Some (q_inf d, q_sup d) /\ (forall l, labels = Some l -> nth_error l i = labels_of d) /\ (labels = None -> labels_of d = None) /\
    (forall h, nth_error (dispersion None bc) i = Some h -> q_path_distances d = distance h) /\
    (forall b q, frequency_shifts d b q = renormalized_frequencies d b q - harmonic_frequencies d b q) /\
    (wl = true -> exists plus minus width, linewidth_plus d = Some plus /\ linewidth_minus d = Some minus /\ linewidth d = Some width /\ forall b q, width b q = plus b q - minus b q) /\
    (wl = false -> linewidth_plus d = None /\ linewidth_minus d = None /\ linewidth d = None) /\
    (ic = false -> forall h b q, nth_error (dispersion None bc) i = Some h -> harmonic_frequencies d b q = freq h q b) /\
    (bc = false -> forall r b q, nth_error (dispersion (Some (rfc fr)) bc) i = Some r -> renormalized_frequencies d b q = freq r q b).
Proof.
  intros m point FC dispersion rfc fr lw ranges labels wl ic bc Hd Hl. destruct (api_total m dispersion rfc fr lw ranges labels wl ic bc Hd Hl) as (out & H & L).
  exists out. split; [exact H|]. split; [exact L|]. intros i d Hi.
  destruct (api_entries m dispersion rfc fr lw ranges labels wl ic bc out i d H Hi) as (h & r & s & f & Eh & Er & Es & Ef & E1 & E2 & E3 & E4 & E5 & E6 & E7 & E8 & E9 & E10).
  split; [exact E1|]. split; [intros l ->; symmetry; exact E2|]. split; [intros ->; exact E2|]. split.
  { intros h0 Hh0. rewrite E4. destruct ic; [|congruence]. destruct (dispersion None bc) as [|s0 l]; [destruct i; discriminate|]. cbn in Eh. destruct i; cbn in Eh, Hh0; [congruence|].
    assert (Q : forall l prev i h h0, nth_error (reconnect_from m prev l) i = Some h -> nth_error l i = Some h0 -> distance h = distance h0).
    { clear. induction l as [|s l IH]; intros prev [|i] h h0 Hh Hh0; cbn in *; try discriminate; [injection Hh as <-; injection Hh0 as ->; reflexivity|apply (IH _ _ _ _ Hh Hh0)]. }
    apply (Q _ _ _ _ _ Eh Hh0). }
  split; [intros b q; rewrite E7, E5, E6; reflexivity|]. split.
  { intros ->. do 3 eexists. split; [exact E9|]. split; [exact E8|]. split; [exact E10|]. reflexivity. }
  split; [intros ->; auto|]. split.
  - intros -> h0 b q Hh0. rewrite E5. congruence.
  - intros -> r0 b q Hr0. rewrite E6. congruence.
Qed.

(** With band_connection, if each harmonic mode has one renormalized mode that is more than half of it along the whole stretch, then the reported
    renormalized branches are a rearrangement of phonopy's and each one is paired with the harmonic branch it follows; the same for the two
    limits whose difference is the linewidth.  Missing (refuted below): the same without that condition.  The stretches of the harmonic bands
    may have been reconnected before (o). *)
Theorem C77_followed_partial : forall m (point FC : Type) (dispersion : option FC -> bool -> list segment) rfc fr lw (ranges : list (point * point)) labels wl ic out i d h,
  (0 < m)%nat -> get_renormalized_phonon_dispersion_bands m dispersion rfc fr lw ranges labels wl ic true = Some out -> nth_error out i = Some d ->
  nth_error (dispersion None true) i = Some h ->
  exists o, (forall b, (b < m)%nat -> (o b < m)%nat) /\ (ic = false -> forall b, o b = b) /\ (forall b q, (b < m)%nat -> harmonic_frequencies d b q = freq h q (o b)) /\
  forall fc reported, (fc = rfc fr /\ reported = Some (renormalized_frequencies d)) \/ (fc = rfc (fun i j => fr i j + lw i j / 2) /\ reported = linewidth_plus d) \/
                      (fc = rfc (fun i j => fr i j - lw i j / 2) /\ reported = linewidth_minus d) ->
  forall branches r, reported = Some branches -> nth_error (dispersion (Some fc) true) i = Some r -> followed m (npoints h) (npoints r) (evec h) (evec r) ->
  exists s, rearrangement m s /\ (forall b q, (b < m)%nat -> (q < npoints h)%nat -> same_mode m (evec h q) (evec r q) b (s b)) /\
    (forall b q, (b < m)%nat -> branches b q = freq r q (s (o b))).
Proof.
  intros m point FC dispersion rfc fr lw ranges labels wl ic out i d h Hm H Hi Hh.
  destruct (api_entries m dispersion rfc fr lw ranges labels wl ic true out i d H Hi) as (h' & r' & s' & f' & Eh & Er & Es & Ef & _ & _ & _ & _ & E5 & E6 & _ & E8 & E9 & _).
  cbv zeta in Eh, Er, Es, Ef.
  assert (P : exists o, (forall b, (b < m)%nat -> (o b < m)%nat) /\ (ic = false -> forall b, o b = b) /\ npoints h' = npoints h /\ (forall q b, freq h' q b = freq h q (o b)) /\ (forall q c b, evec h' q c b = evec h q c (o b))).
  { destruct ic.
    - destruct (reconnect_nth m Hm _ _ _ Eh) as (h0 & o & Q1 & Q2 & Q3 & _ & Q4 & Q5). rewrite Hh in Q1. injection Q1 as <-. exists o. repeat split; auto. discriminate.
    - rewrite Hh in Eh. injection Eh as <-. exists (fun b => b). repeat split; auto. }
  destruct P as (o & O1 & O2 & O3 & O4 & O5).
  exists o. split; [exact O1|]. split; [exact O2|]. split; [intros b q _; rewrite E5; apply O4|].
  assert (G : forall fc x, nth_error (set_order m (if ic then reconnect_eigenvectors m (dispersion None true) else dispersion None true) (dispersion (Some fc) true)) i = Some x ->
    forall r, nth_error (dispersion (Some fc) true) i = Some r -> followed m (npoints h) (npoints r) (evec h) (evec r) ->
    exists s, rearrangement m s /\ (forall b q, (b < m)%nat -> (q < npoints h)%nat -> same_mode m (evec h q) (evec r q) b (s b)) /\ (forall b q, (b < m)%nat -> freq x q b = freq r q (s (o b)))).
  { intros fc x Hx r Hr (F1 & F2 & F3 & F4). set (s := fun b => eigenvector_order m h r b).
    assert (S : forall b, (b < m)%nat -> (s b < m)%nat /\ forall q, (q < npoints h)%nat -> same_mode m (evec h q) (evec r q) b (s b)).
    { intros b Hb. destruct (F4 b Hb) as (j & Hj & Sj). assert (E : s b = j). { apply order_matched; auto; intros q Hq; apply F3, Hq. } rewrite E. split; assumption. }
    exists s. split; [|split].
    - apply inj_rearrangement; [intros b Hb; apply S, Hb|]. intros a b Ha Hb E. destruct (S a Ha) as (Sa & Ma). destruct (S b Hb) as (Sb & Mb). rewrite <- E in Mb.
      destruct (F3 0%nat F2) as (Oh & Or). apply (match_inj m _ _ _ _ _ Oh Or Ha Hb Sa (Ma 0%nat F2) (Mb 0%nat F2)).
    - intros b q Hb Hq. apply S; assumption.
    - intros b q Hb. rewrite (set_order_nth m _ _ _ _ _ Eh Hr) in Hx. injection Hx as <-. cbn. unfold take_freq. f_equal.
      assert (X : forall z, metric m h' r b z = metric m h r (o b) z).
      { intros z. unfold metric. rewrite O3. clear - O5. induction (Nat.min (npoints h) (npoints r)) as [|n IH]; [reflexivity|]. cbn [sum_upto]. rewrite IH. f_equal. unfold overlap. f_equal. apply csum_ext. intros c _. rewrite O5. reflexivity. }
      destruct (S (o b) (O1 b Hb)) as (S1 & S2). unfold eigenvector_order at 1.
      apply argmax_best; [exact S1|]. intros j' Hj' N. rewrite !X. unfold metric. rewrite <- F1, Nat.min_id. apply sum_upto_lt; [exact F2|]. intros p Hp. apply match_larger; auto; apply F3, Hp. }
  intros fc reported Hc branches r Hrep Hr Hf.
  destruct Hc as [(-> & ->)|[(-> & ->)|(-> & ->)]].
  - injection Hrep as <-. destruct (G _ _ Er r Hr Hf) as (s & G1 & G2 & G3). exists s. split; [exact G1|]. split; [exact G2|]. intros b q Hb. rewrite E6. apply G3, Hb.
  - rewrite E9 in Hrep. destruct wl; [|discriminate]. injection Hrep as <-. destruct (G _ _ Es r Hr Hf) as (s & G1 & G2 & G3). exists s. split; [exact G1|]. split; [exact G2|]. intros b q Hb. apply G3, Hb.
  - rewrite E8 in Hrep. destruct wl; [|discriminate]. injection Hrep as <-. destruct (G _ _ Ef r Hr Hf) as (s & G1 & G2 & G3). exists s. split; [exact G1|]. split; [exact G2|]. intros b q Hb. apply G3, Hb.
Qed.

(** If renormalization changes nothing (same frequencies and eigenvectors), every shift is zero, except with interconnect_bands and without
    band_connection (refuted below) *)
Theorem C77_unchanged_partial : forall m (point FC : Type) (dispersion : option FC -> bool -> list segment) rfc fr lw (ranges : list (point * point)) labels wl ic bc out i d b q,
  dispersion (Some (rfc fr)) bc = dispersion None bc -> (forall s q, In s (dispersion None bc) -> (0 < npoints s)%nat /\ orthonormal m (evec s q)) ->
  (ic = true -> bc = true) -> get_renormalized_phonon_dispersion_bands m dispersion rfc fr lw ranges labels wl ic bc = Some out -> nth_error out i = Some d ->
  (b < m)%nat -> frequency_shifts d b q = 0.
Proof.
  intros m point FC dispersion rfc fr lw ranges labels wl ic bc out i d b q Same Ort Hic H Hi Hb.
  destruct (api_entries m dispersion rfc fr lw ranges labels wl ic bc out i d H Hi) as (h & r & _ & _ & Eh & Er & _ & _ & _ & _ & _ & _ & _ & _ & E7 & _).
  cbv zeta in Eh, Er. rewrite Same in Er. rewrite E7.
  destruct bc.
  2:{ destruct ic; [discriminate (Hic eq_refl)|]. rewrite Eh in Er. injection Er as <-. ring. }
  assert (P : exists s o, nth_error (dispersion None true) i = Some s /\ (forall b, (b < m)%nat -> (o b < m)%nat) /\ npoints h = npoints s /\ (forall q b, freq h q b = freq s q (o b)) /\ (forall q c b, evec h q c b = evec s q c (o b))).
  { destruct ic.
    - destruct (reconnect_nth m ltac:(lia) _ _ _ Eh) as (h0 & o & Q1 & Q2 & Q3 & _ & Q4 & Q5). exists h0, o. repeat split; auto.
    - exists h, (fun b => b). repeat split; auto. }
  destruct P as (s & o & Hs & O1 & O3 & O4 & O5). rewrite (set_order_nth m _ _ _ _ _ Eh Hs) in Er. injection Er as <-. cbn. unfold take_freq. rewrite O4.
  assert (Is : In s (dispersion None true)) by (apply (nth_error_In _ _ Hs)).
  assert (E : eigenvector_order m h s b = o b).
  { unfold eigenvector_order. apply argmax_best; [apply O1, Hb|]. intros j Hj N. unfold metric. rewrite O3, Nat.min_id. apply sum_upto_lt; [apply (Ort s 0%nat Is)|]. intros p Hp.
    assert (X : forall z, overlap m (evec h p) (evec s p) b z = overlap m (evec s p) (evec s p) (o b) z). { intros z. unfold overlap. f_equal. apply csum_ext. intros c _. rewrite O5. reflexivity. }
    rewrite !X, !overlap_inner. destruct (Ort s p Is) as (_ & Os). rewrite (orthonormal_self _ _ _ Os) by (apply O1, Hb). rewrite (orthonormal_other _ _ (o b) j Os) by (auto using O1). rewrite !Cmod_R, !Rabs_pos_eq by lra. lra. }
  rewrite E. ring.
Qed.

(** The claim of C77 without the condition is false: for every number of points and all frequencies there are complete orthonormal sets of modes
    for which one renormalized branch is reported twice and another one not at all. *)
Theorem C77_branch_lost_refuted : forall n distance fh f, (0 < n)%nat -> exists eh er, (forall q, orthonormal 3 (eh q) /\ orthonormal 3 (er q)) /\
  forall wl rfc fr lw, exists d, get_renormalized_phonon_dispersion_bands 3 (fun fc _ => [MkS n distance (match fc with None => fh | Some _ => f end) (match fc with None => eh | Some _ => er end)])
      (rfc : _ -> unit) fr lw [(tt, tt)] None wl false true = Some [d] /\
    forall q, renormalized_frequencies d 0 q = f q 0%nat /\ renormalized_frequencies d 1 q = f q 0%nat /\ renormalized_frequencies d 2 q = f q 2%nat.
Proof.
  intros n dist fh f Hn. exists (fun _ => unit_modes), (fun _ => turned_modes). split; [intros q; split; [apply unit_orthonormal|apply turned_orthonormal]|].
  intros wl rfc fr lw.
  destruct (api_total 3 (fun (fc : option unit) (_ : bool) => [MkS n dist (match fc with None => fh | Some _ => f end) (fun _ => match fc with None => unit_modes | Some _ => turned_modes end)]) rfc fr lw [(tt, tt)] None wl false true) as (out & H & L).
  { reflexivity. } { discriminate. }
  destruct out as [|d [|]]; try discriminate L. exists d.
  assert (H' : get_renormalized_phonon_dispersion_bands 3 (fun (fc : option unit) (_ : bool) => [MkS n dist (match fc with None => fh | Some _ => f end) (match fc with None => fun _ => unit_modes | Some _ => fun _ => turned_modes end)]) rfc fr lw [(tt, tt)] None wl false true = Some [d]) by exact H.
  clear H. split; [exact H'|].
  destruct (api_entries _ _ _ _ _ _ _ _ _ _ _ 0%nat d H' eq_refl) as (h & r & _ & _ & Eh & Er & _ & _ & _ & _ & _ & _ & _ & E6 & _). cbn in Eh, Er. injection Eh as <-. injection Er as <-.
  intros q. rewrite !E6. cbn [freq set_freq]. unfold take_freq. rewrite !turned_order by lia. repeat split; reflexivity.
Qed.

(** interconnect_bands without band_connection: the renormalized branches are not reordered with the harmonic ones, so even when renormalization
    changes nothing the reported shifts are differences between two branches. *)
Theorem C77_interconnect_only_refuted : forall n distance f, (0 < n)%nat -> exists e1 e2, (forall q, orthonormal 3 (e1 q) /\ orthonormal 3 (e2 q)) /\
  forall wl rfc fr lw, exists d1 d2, get_renormalized_phonon_dispersion_bands 3 (fun _ _ => [MkS n distance f e1; MkS n distance f e2])
      (rfc : _ -> unit) fr lw [(tt, tt); (tt, tt)] None wl true false = Some [d1; d2] /\
    forall q, frequency_shifts d2 0 q = f q 0%nat - f q 1%nat /\ frequency_shifts d2 1 q = f q 1%nat - f q 0%nat.
Proof.
  intros n dist f Hn. exists (fun _ => unit_modes), (fun _ => swapped_modes). split; [intros q; split; [apply unit_orthonormal|apply swapped_orthonormal]|].
  intros wl rfc fr lw.
  destruct (api_total 3 (fun (_ : option unit) (_ : bool) => [MkS n dist f (fun _ => unit_modes); MkS n dist f (fun _ => swapped_modes)]) rfc fr lw [(tt, tt); (tt, tt)] None wl true false) as (out & H & L).
  { reflexivity. } { discriminate. }
  destruct out as [|d1 [|d2 [|]]]; try discriminate L. exists d1, d2. split; [exact H|].
  destruct (api_entries _ _ _ _ _ _ _ _ _ _ _ 1%nat d2 H eq_refl) as (h & r & _ & _ & Eh & Er & _ & _ & _ & _ & _ & _ & _ & _ & E7 & _). cbn in Eh, Er. injection Eh as <-. injection Er as <-.
  assert (J : forall i, (i < 3)%nat -> joint_order 3 (MkS n dist f (fun _ => unit_modes)) (MkS n dist f (fun _ => swapped_modes)) i = match i with 0 => 1 | 1 => 0 | _ => i end%nat).
  { intros i Hi. unfold joint_order. cbn [evec]. apply argmax_best; [destruct i as [|[|[|]]]; lia|]. intros j Hj N. rewrite !unit_overlap by exact Hi. three i; three j; try lia; cbn; rewrite !Cmod_R, !Rabs_pos_eq by lra; lra. }
  intros q. rewrite !E7. cbn [freq reorder]. unfold take_freq. rewrite !J by lia. split; reflexivity.
Qed.

(** C78: across the stretches of a path.  Reordering keeps each frequency with its eigenvector at every point, and never changes the first stretch
    or the points of a stretch. *)
Theorem C78_pairs_kept : forall m l, (0 < m)%nat -> List.length (reconnect_eigenvectors m l) = List.length l /\
  (forall s, nth_error l 0 = Some s -> nth_error (reconnect_eigenvectors m l) 0 = Some s) /\
  forall k s, nth_error (reconnect_eigenvectors m l) k = Some s -> exists original order, nth_error l k = Some original /\ npoints s = npoints original /\ distance s = distance original /\
    forall b, (b < m)%nat -> (order b < m)%nat /\ forall q, freq s q b = freq original q (order b) /\ forall c, evec s q c b = evec original q c (order b).
Proof.
  intros m l Hm. split; [apply reconnect_length|]. split; [destruct l; cbn; auto|]. intros k s H. destruct (reconnect_nth m Hm l k s H) as (s0 & o & Q1 & Q2 & Q3 & Q4 & Q5 & Q6).
  exists s0, o. split; [exact Q1|]. split; [exact Q3|]. split; [exact Q4|]. intros b Hb. split; [apply Q2, Hb|]. intros q. split; [apply Q5|intros c; apply Q6].
Qed.
(** If at every joint each mode of one side has a mode of the other side that is more than half of it, then after reconnection branch b goes on as
    branch b at every joint of the path, and each stretch still has all its branches. *)
Theorem C78_continuous_partial : forall m l, (0 < m)%nat ->
  (forall s, In s l -> orthonormal m (evec s 0) /\ orthonormal m (evec s (npoints s - 1))) ->
  (forall a b, consecutive l a b -> forall i, (i < m)%nat -> exists j, (j < m)%nat /\ same_mode m (evec a (npoints a - 1)) (evec b 0) i j) ->
  (forall a b, consecutive (reconnect_eigenvectors m l) a b -> forall i, (i < m)%nat -> same_mode m (evec a (npoints a - 1)) (evec b 0) i i) /\
  (forall k s s', nth_error l k = Some s -> nth_error (reconnect_eigenvectors m l) k = Some s' -> exists order, rearrangement m order /\
     forall q b, freq s' q b = freq s q (order b) /\ forall c, evec s' q c b = evec s q c (order b)).
Proof.
  intros m [|s0 l] Hm O M.
  - split; [intros a b (k & Ha & _); destruct k; discriminate|]. intros [|k] s s'; discriminate.
  - destruct (reconnect_chain m Hm l s0 s0 (fun b => b)) as (I1 & I2).
    + split; [split; [auto|split; [auto|]]; intros j Hj; exists j; auto|]. repeat split; reflexivity.
    + apply O. left. reflexivity.
    + intros s Hs. apply O. right. exact Hs.
    + intros k a b Ha Hb. apply M. exists k. split; assumption.
    + split.
      * intros a b (k & Ha & Hb). apply (I2 k a b Ha Hb).
      * intros k s s' Hs Hs'. destruct (I1 k s s' Hs Hs') as (o & R1 & _ & _ & R2 & R3). exists o. split; [exact R1|]. intros q b. split; [apply R2|intros c; apply R3].
Qed.
(** without that condition a branch can be lost at a joint: everything after it shows one branch twice *)
Theorem C78_branch_lost_refuted : forall n distance f g, (0 < n)%nat -> exists e1 e2, (forall q, orthonormal 3 (e1 q) /\ orthonormal 3 (e2 q)) /\
  exists s, nth_error (reconnect_eigenvectors 3 [MkS n distance f e1; MkS n distance g e2]) 1 = Some s /\
    forall q, freq s q 0%nat = g q 0%nat /\ freq s q 1%nat = g q 0%nat /\ freq s q 2%nat = g q 2%nat.
Proof.
  intros n dist f g Hn. exists (fun _ => unit_modes), (fun _ => turned_modes). split; [intros q; split; [apply unit_orthonormal|apply turned_orthonormal]|].
  eexists. split; [reflexivity|]. intros q. cbn [freq reorder]. unfold take_freq.
  assert (J : forall i, (i < 3)%nat -> joint_order 3 (MkS n dist f (fun _ => unit_modes)) (MkS n dist g (fun _ => turned_modes)) i = match i with 2%nat => 2%nat | _ => 0%nat end).
  { intros i Hi. assert (H := half_pos). unfold joint_order. cbn [evec]. three i; apply argmax_first; try lia; intros j Hj; rewrite !turned_overlap by lia; try (three j; lra); try lia. destruct j as [|[|j]]; [lra|lra|lia]. }
  rewrite !J by lia. repeat split; reflexivity.
Qed.

(** C79: one label per tick and one tick per label; the first and last labels are the ends of the path; at the joint between stretches k and k+1
    there is one label when the end and the start have the same one, and both separated by a slash otherwise *)
Theorem C79_tick_labels : forall show l first, nth_error l 0 = Some first -> exists ticks, tick_labels show l = Some ticks /\ List.length ticks = S (List.length l) /\
  nth_error ticks 0 = Some (show (fst first)) /\ (forall z, nth_error l (List.length l - 1) = Some z -> nth_error ticks (List.length l) = Some (show (snd z))) /\
  forall a b k, nth_error l k = Some a -> nth_error l (S k) = Some b ->
    (snd a = fst b -> nth_error ticks (S k) = Some (show (fst b))) /\ (snd a <> fst b -> nth_error ticks (S k) = Some (show (snd a) ++ "/" ++ show (fst b)))%string.
Proof.
  intros show [|p l] first Hf; [discriminate|]. injection Hf as ->. unfold tick_labels.
  set (L := first :: l). set (at_ := fun i => nth i L first). set (prev := fun i => match i with O => at_ (List.length L - 1)%nat | S i => at_ i end).
  set (F := fun i => if String.eqb (fst (at_ i)) (snd (prev i)) then show (fst (at_ i)) else append (show (snd (prev i))) (append "/" (show (fst (at_ i))))).
  assert (E : seq 0 (List.length L) = 0%nat :: seq 1 (List.length l)) by reflexivity. fold F. rewrite E. cbn [map app].
  eexists. split; [reflexivity|]. split; [cbn; rewrite app_length, map_length, seq_length; cbn; lia|]. split; [reflexivity|]. split.
  - intros z Hz. match goal with |- nth_error ?x _ = _ => change (nth_error x (S (List.length l)) = Some (show (snd z))) end. cbn [nth_error]. rewrite nth_error_app2 by (rewrite map_length, seq_length; lia). rewrite map_length, seq_length, Nat.sub_diag. cbn [nth_error].
    f_equal. f_equal. f_equal. unfold at_. apply nth_error_nth. exact Hz.
  - intros a b k Ha Hb. cbn [nth_error].
    assert (Hk : (k < List.length l)%nat) by (assert (X : nth_error L (S k) <> None) by (rewrite Hb; discriminate); apply nth_error_Some in X; cbn in X; lia).
    rewrite nth_error_app1 by (rewrite map_length, seq_length; exact Hk).
    assert (Q : nth_error (map F (seq 1 (List.length l))) k = Some (F (S k))). { rewrite (map_nth_error F k (seq 1 (List.length l)) (d := S k)); [reflexivity|]. rewrite (nth_error_nth' _ 0%nat) by (rewrite seq_length; exact Hk). rewrite seq_nth by exact Hk. reflexivity. }
    assert (Eb : at_ (S k) = b) by (apply nth_error_nth; exact Hb). assert (Ea : prev (S k) = a) by (apply nth_error_nth; exact Ha).
    split; intros H; (etransitivity; [exact Q|]); unfold F; rewrite Eb, Ea.
    + rewrite <- H, String.eqb_refl. reflexivity.
    + destruct (String.eqb_spec (fst b) (snd a)) as [X|_]; [congruence|reflexivity].
Qed.
Theorem C79_tick_positions : forall l first, nth_error l 0 = Some first -> exists x, tick_positions l = Some x /\ List.length x = S (List.length l) /\
  (forall k s, nth_error l k = Some s -> nth_error x k = Some (distance s 0)) /\
  (forall s, nth_error l (List.length l - 1) = Some s -> nth_error x (List.length l) = Some (distance s (npoints s - 1))).
Proof.
  intros [|p l] first Hf; [discriminate|]. injection Hf as ->. unfold tick_positions. set (L := first :: l).
  eexists. split; [reflexivity|]. split; [rewrite app_length, map_length; cbn; lia|]. split.
  - intros k s Hs. rewrite nth_error_app1 by (rewrite map_length; apply nth_error_Some; rewrite Hs; discriminate). exact (map_nth_error (fun s => distance s 0%nat) k L Hs).
  - intros s Hs. rewrite nth_error_app2 by (rewrite map_length; lia). rewrite map_length, Nat.sub_diag. cbn [nth_error]. f_equal.
    assert (E : last L first = s).
    { rewrite <- (nth_error_nth _ _ first Hs). assert (G : forall (d x : segment) r, last (x :: r) d = nth (List.length (x :: r) - 1) (x :: r) d).
      { intros d x r. revert x. induction r as [|y r IH]; intros x; [reflexivity|]. change (last (x :: y :: r) d) with (last (y :: r) d). rewrite IH. cbn [List.length].
        replace (S (S (List.length r)) - 1)%nat with (S (S (List.length r) - 1))%nat by lia. reflexivity. }
      apply G. }
    rewrite E. reflexivity.
Qed.

(** the hypotheses are met: identical sets follow each other *)
Lemma self_followed n e : (0 < n)%nat -> (forall q, orthonormal 3 (e q)) -> followed 3 n n e e.
Proof.
  intros Hn O. split; [reflexivity|]. split; [exact Hn|]. split; [intros q _; split; apply O|]. intros i Hi. exists i. split; [exact Hi|]. intros q _. unfold same_mode.
  rewrite (orthonormal_self _ _ _ (O q) Hi), Cmod_R, Rabs_pos_eq by lra. unfold Rsqr. lra.
Qed.
Example C77_nonvacuous : followed 3 31 31 (fun _ => unit_modes) (fun _ => unit_modes) /\ orthonormal 3 turned_modes.
Proof. split; [apply self_followed; [lia|intros q; apply unit_orthonormal]|apply turned_orthonormal]. Qed.
(** a joint where the two sides list the same modes in another order meets the hypothesis of C78, and it is not met trivially *)
Example C78_nonvacuous : let l := [MkS 4 INR (fun _ => INR) (fun _ => unit_modes); MkS 4 INR (fun _ => INR) (fun _ => swapped_modes)] in
  (forall s, In s l -> orthonormal 3 (evec s 0) /\ orthonormal 3 (evec s (npoints s - 1))) /\
  (forall a b, consecutive l a b -> forall i, (i < 3)%nat -> exists j, (j < 3)%nat /\ same_mode 3 (evec a (npoints a - 1)) (evec b 0) i j) /\
  ~ same_mode 3 unit_modes swapped_modes 0 0.
Proof.
  cbv zeta. split; [|split].
  - intros s [<-|[<-|[]]]; cbn; split; try apply unit_orthonormal; apply swapped_orthonormal.
  - intros a b ([|k] & Ha & Hb) i Hi; cbn in Ha, Hb; [|destruct k as [|[|]]; discriminate]. injection Ha as <-. injection Hb as <-.
    exists (match i with 0 => 1 | 1 => 0 | _ => i end)%nat. split; [destruct i as [|[|[|]]]; lia|]. unfold same_mode. rewrite <- overlap_inner, unit_overlap by exact Hi.
    three i; cbn; rewrite Cmod_R, Rabs_pos_eq by lra; unfold Rsqr; lra.
  - unfold same_mode. rewrite <- overlap_inner, unit_overlap by lia. cbn. rewrite Cmod_R, Rabs_pos_eq by lra. unfold Rsqr. lra.
Qed.
Example C79_nonvacuous : tick_labels (fun s => s) [("G", "X"); ("X", "K"); ("U", "G")]%string = Some ["G"; "X"; "K/U"; "G"]%string.
Proof. reflexivity. Qed.
Print Assumptions C77_entries. Print Assumptions C77_followed_partial. Print Assumptions C77_unchanged_partial. Print Assumptions C77_branch_lost_refuted. Print Assumptions C77_interconnect_only_refuted.
Print Assumptions C78_pairs_kept. Print Assumptions C78_continuous_partial. Print Assumptions C78_branch_lost_refuted. Print Assumptions C79_tick_labels. Print Assumptions C79_tick_positions.
