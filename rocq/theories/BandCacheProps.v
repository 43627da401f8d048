(** C90: harmonic dispersion relations. *)
From Verif Require Import BandCacheModel.
From Coq Require Import Lia.

Section Inv.
Context {Q L B : Type} (bands : list (Q * Q) -> bool -> B) (seek_path : list (Q * Q) * L).
(** the dispersion relation of the path and NAC choice in force (the automatic path when none was given) *)
Definition current (s : @state Q L B) : B := bands (match s_ranges s with Some r => r_ranges r | None => fst seek_path end) (s_nac s).
Definition current_labels (s : @state Q L B) : option L := match s_ranges s with Some r => r_labels r | None => Some (snd seek_path) end.
Definition ok (s : @state Q L B) : Prop := match s_bands s with Some b => b = current s | None => True end.
Lemma step_ok c s : ok s -> ok (snd (step bands seek_path c s)).
Proof.
  intros H. destruct s as [r n [b|]]; unfold ok, current in *; cbn in H; destruct c as [b'|[r'|l|]| | |]; cbn; try exact I; try exact H; destruct r as [r|]; cbn; try exact H; try exact I; reflexivity.
Qed.
Lemma run_ok l : forall s, ok s -> ok (run bands seek_path l s).
Proof. induction l as [|c l IH]; intros s H; cbn; [exact H|]. apply IH, step_ok, H. Qed.
End Inv.

(** C90.  After any history of calls (with exceptions caught), a plot shows the dispersion relation, and the labels, of the path and the
    NAC choice then in force; so does a print that completes. *)
Theorem C90_plot :
  forall (Q L B : Type) (bands : list (Q * Q) -> bool -> B) (seek_path : list (Q * Q) * L) (r : option (@ranges Q L)) (nac : bool) (l : list (@call Q L)),
  let s := run bands seek_path l (MkS r nac None) in
  fst (step bands seek_path Plot s) = Some (Dispersion (current bands seek_path s) (current_labels seek_path s)) /\
  forall b, fst (step bands seek_path Print s) = Some (Table b) -> b = current bands seek_path s.
Proof.
  intros Q L B bands sp r nac l s. assert (H : ok bands sp s) by (apply run_ok; exact I). destruct s as [r' n [b|]]; unfold ok, current, current_labels in *; cbn in *.
  - subst b. destruct r' as [r'|]; cbn; split; try reflexivity; intros b E; injection E as <-; reflexivity.
  - destruct r' as [[rr ll]|]; cbn; split; try reflexivity; try discriminate; destruct ll; discriminate.
Qed.
Print Assumptions C90_plot.
(** Which settings are in force. *)
Theorem C90_settings :
  forall (Q L B : Type) (bands : list (Q * Q) -> bool -> B) (seek_path : list (Q * Q) * L) (s : @state Q L B) (path : list (Q * Q)) (b : bool) (d : @ranges Q L),
  (let s' := snd (step bands seek_path (SetRanges (GList path)) s) in current bands seek_path s' = bands path (s_nac s) /\ current_labels seek_path s' = None) /\
  (let s' := snd (step bands seek_path (SetRanges (GDict d)) s) in current bands seek_path s' = bands (r_ranges d) (s_nac s) /\ current_labels seek_path s' = r_labels d) /\
  (let s' := snd (step bands seek_path (SetNAC b) s) in current bands seek_path s' = bands (match s_ranges s with Some r => r_ranges r | None => fst seek_path end) b) /\
  (let s' := snd (step bands seek_path (SetRanges GOther) s) in fst (step bands seek_path (SetRanges GOther) s) = None /\ current bands seek_path s' = current bands seek_path s).
Proof. intros. repeat split. Qed.
Print Assumptions C90_settings.
(** Over a whole history the settings in force are the last ones that were given: the last path (a refused one does not count, and neither clearing nor
    plotting nor printing loses it) and the last NAC choice. *)
Definition last_path {Q L} (r : option (@ranges Q L)) (l : list (@call Q L)) : option (@ranges Q L) :=
  fold_left (fun r c => match c with SetRanges (GDict d) => Some d | SetRanges (GList p) => Some (MkR p None) | _ => r end) l r.
Definition last_nac {Q L} (nac : bool) (l : list (@call Q L)) : bool := fold_left (fun n c => match c with SetNAC b => b | _ => n end) l nac.
Theorem C90_history :
  forall (Q L B : Type) (bands : list (Q * Q) -> bool -> B) (seek_path : list (Q * Q) * L) (r : option (@ranges Q L)) (nac : bool) (l : list (@call Q L)),
  fst (step bands seek_path Plot (run bands seek_path l (MkS r nac None))) =
    Some (Dispersion (bands (match last_path r l with Some d => r_ranges d | None => fst seek_path end) (last_nac nac l))
                     (match last_path r l with Some d => r_labels d | None => Some (snd seek_path) end)).
Proof.
  intros Q L B bands sp r nac l. destruct (C90_plot Q L B bands sp r nac l) as [-> _].
  assert (G : forall l (s : @state Q L B) r, (s_ranges s = r \/ r = None /\ s_ranges s = Some (MkR (fst sp) (Some (snd sp)))) ->
    current bands sp (run bands sp l s) = bands (match last_path r l with Some d => r_ranges d | None => fst sp end) (last_nac (s_nac s) l) /\
    current_labels sp (run bands sp l s) = match last_path r l with Some d => r_labels d | None => Some (snd sp) end).
  { clear. induction l as [|c l IH]; intros s r H.
    - unfold current, current_labels. cbn. destruct H as [<-|[-> ->]]; split; reflexivity.
    - change (run bands sp (c :: l) s) with (run bands sp l (snd (step bands sp c s))).
      assert (K : forall s' r' n', s_nac s' = n' -> (s_ranges s' = r' \/ r' = None /\ s_ranges s' = Some (MkR (fst sp) (Some (snd sp)))) -> snd (step bands sp c s) = s' ->
        last_path r (c :: l) = last_path r' l -> last_nac (s_nac s) (c :: l) = last_nac n' l ->
        current bands sp (run bands sp l (snd (step bands sp c s))) = bands (match last_path r (c :: l) with Some d => r_ranges d | None => fst sp end) (last_nac (s_nac s) (c :: l)) /\
        current_labels sp (run bands sp l (snd (step bands sp c s))) = match last_path r (c :: l) with Some d => r_labels d | None => Some (snd sp) end).
      { intros s' r' n' <- H' -> -> ->. apply IH, H'. }
      destruct s as [q n b]. cbn [s_ranges s_nac] in H. destruct c as [b'|[d|p|]| | |].
      1-5: eapply K; try reflexivity; cbn; auto.
      + apply (K (snd (step bands sp Plot (MkS q n b))) r n); try reflexivity; destruct q as [q|]; cbn; try reflexivity; [exact H|]. destruct H as [<-|[_ H]]; [auto|discriminate].
      + apply (K (snd (step bands sp Print (MkS q n b))) r n); try reflexivity; destruct b as [b|]; try reflexivity; try exact H; destruct q as [[rr [ll|]]|]; cbn; try reflexivity; try exact H.
        destruct H as [<-|[_ H]]; [auto|discriminate]. }
  destruct (G l (MkS r nac None) r (or_introl eq_refl)) as [-> ->]. reflexivity.
Qed.
Print Assumptions C90_history.
Definition changes {Q L} (c : @call Q L) : Prop := match c with SetNAC _ | SetRanges _ | Clear => True | Plot | Print => False end.
(** Printing without having plotted since the settings were last changed never works: every state without cached bands, every path. *)
Theorem C90_print_refuted :
  forall (Q L B : Type) (bands : list (Q * Q) -> bool -> B) (seek_path : list (Q * Q) * L) (r : option (@ranges Q L)) (nac : bool) (l : list (@call Q L)),
  ~ In Plot l \/ (exists before c, l = before ++ [c] /\ changes c) ->
  fst (step bands seek_path Print (run bands seek_path l (MkS r nac None))) = None.
Proof.
  intros Q L B bands sp r nac l H.
  assert (N : forall s : @state Q L B, s_bands s = None -> fst (step bands sp Print s) = None).
  { intros [r' n b] E. cbn in E. subst b. cbn. destruct r' as [[rr [ll|]]|]; reflexivity. }
  apply N.
  assert (P : forall l s, s_bands s = None -> ~ In Plot l -> s_bands (run bands sp l s) = None).
  { clear. induction l as [|c l IH]; intros s E H; cbn; [exact E|]. apply IH; [|intros X; apply H; right; exact X].
    destruct s as [r' n b]. cbn in E. subst b. destruct c as [b'|[r''|l'|]| | |]; cbn; try reflexivity; [exfalso; apply H; left; reflexivity|]. destruct r' as [[rr [ll|]]|]; reflexivity. }
  destruct H as [H|(before & c & -> & Hc)]; [apply P; [reflexivity|exact H]|].
  assert (A : forall before c, s_bands (run bands sp (before ++ [c]) (MkS r nac None)) = s_bands (snd (step bands sp c (run bands sp before (MkS r nac None))))) by (intros; unfold run; rewrite fold_left_app; reflexivity).
  rewrite A. destruct c as [b|g| | |]; try contradiction; [reflexivity|destruct g; reflexivity|reflexivity].
Qed.
Print Assumptions C90_print_refuted.
Example C90_nonvacuous :
  let bands (r : list (nat * nat)) (nac : bool) := (r, nac) in
  let s := run bands ([(9, 9)]%nat, "path"%string) [Plot; SetNAC true; SetRanges (GList [(1, 2)]%nat); Plot] (MkS None false None) in
  fst (step bands ([(9, 9)]%nat, "path"%string) Plot s) = Some (Dispersion ([(1, 2)]%nat, true) None) /\
  fst (step bands ([(9, 9)]%nat, "path"%string) Print s) = Some (Table ([(1, 2)]%nat, true)) /\
  fst (step bands ([(9, 9)]%nat, "path"%string) Print (MkS None false None)) = None.
Proof. repeat split. Qed.
