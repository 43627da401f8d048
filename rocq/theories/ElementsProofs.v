From Verif Require Import ElementsModel ElementsSpec.
From Coq Require Import List.
Open Scope R_scope.

(** rounding of a fraction *)
Definition zhalf (m d : Z) : Z :=
  let q := (m / d)%Z in let r := (m mod d)%Z in
  if (2 * r <? d)%Z then q else if (d <? 2 * r)%Z then (q + 1)%Z else if Z.even q then q else (q + 1)%Z.
Lemma rfloor_frac m d : (0 < d)%Z -> rfloor (IZR m / IZR d) = (m / d)%Z.
Proof.
  intros Hd. assert (D : 0 < IZR d) by (apply IZR_lt; exact Hd). apply rfloor_unique.
  assert (E := Z.div_mod m d ltac:(lia)). assert (B := Z.mod_pos_bound m d Hd).
  assert (EM : IZR m = IZR d * IZR (m / d) + IZR (m mod d)) by (rewrite <- mult_IZR, <- plus_IZR; f_equal; exact E).
  assert (B0 : 0 <= IZR (m mod d)) by (apply IZR_le; lia). assert (B1 : IZR (m mod d) < IZR d) by (apply IZR_lt; lia).
  rewrite EM. split.
  - apply Rmult_le_reg_r with (IZR d); [exact D|]. unfold Rdiv. rewrite Rmult_assoc, Rinv_l by lra. nra.
  - apply Rmult_lt_reg_r with (IZR d); [exact D|]. unfold Rdiv. rewrite Rmult_assoc, Rinv_l by lra. nra.
Qed.
Lemma around_frac m d : (0 < d)%Z -> around (IZR m / IZR d) = zhalf m d.
Proof.
  intros Hd. assert (D : 0 < IZR d) by (apply IZR_lt; exact Hd). unfold around. rewrite (rfloor_frac m d Hd). unfold zhalf.
  assert (E := Z.div_mod m d ltac:(lia)).
  assert (EM : IZR m / IZR d - IZR (m / d) = IZR (m mod d) / IZR d).
  { assert (EM : IZR m = IZR d * IZR (m / d) + IZR (m mod d)) by (rewrite <- mult_IZR, <- plus_IZR; f_equal; exact E). rewrite EM at 1. field. lra. }
  rewrite EM. set (r := (m mod d)%Z) in *. clearbody r.
  assert (L : IZR r / IZR d < 1/2 <-> (2 * r < d)%Z).
  { split; intros H.
    - apply lt_IZR. rewrite mult_IZR. apply Rmult_lt_compat_r with (r := IZR d) in H; [|exact D]. unfold Rdiv in H. rewrite Rmult_assoc, Rinv_l in H by lra. lra.
    - apply IZR_lt in H. rewrite mult_IZR in H. apply Rmult_lt_reg_r with (IZR d); [exact D|]. unfold Rdiv. rewrite Rmult_assoc, Rinv_l by lra. lra. }
  assert (G : 1/2 < IZR r / IZR d <-> (d < 2 * r)%Z).
  { split; intros H.
    - apply lt_IZR. rewrite mult_IZR. apply Rmult_lt_compat_r with (r := IZR d) in H; [|exact D]. unfold Rdiv in H. rewrite (Rmult_assoc (IZR r)), Rinv_l in H by lra. lra.
    - apply IZR_lt in H. rewrite mult_IZR in H. apply Rmult_lt_reg_r with (IZR d); [exact D|]. unfold Rdiv. rewrite (Rmult_assoc (IZR r)), Rinv_l by lra. lra. }
  destruct (Rlt_dec (IZR r / IZR d) (1/2)) as [A|A]; destruct (Z.ltb_spec (2 * r) d) as [A'|A']; try reflexivity; [apply L in A; lia|exfalso; apply A, L, A'|].
  destruct (Rlt_dec (1/2) (IZR r / IZR d)) as [B|B]; destruct (Z.ltb_spec d (2 * r)) as [B'|B']; try reflexivity; [apply G in B; lia|exfalso; apply B, G, B'].
Qed.
Lemma tenths_row r : tenths (row_mass r) = zhalf (snd r) 10000000.
Proof. unfold tenths, row_mass. rewrite <- around_frac by lia. f_equal. field. Qed.

(** the finite facts about the tables *)
Definition zt (r : nat * string * string * Z) : Z := zhalf (snd r) 10000000.
Lemma chk_pos : forallb (fun ir => Nat.eqb (row_number (snd ir)) (fst ir)) (combine (seq 0 119) atom_data) = true. Proof. vm_compute. reflexivity. Qed.
Lemma chk_len : List.length atom_data = 119%nat. Proof. vm_compute. reflexivity. Qed.
Lemma chk_map : forallb (fun sn => match nth_error atom_data (snd sn) with Some r => String.eqb (row_symbol r) (fst sn) | None => false end) symbol_map = true. Proof. vm_compute. reflexivity. Qed.
Lemma chk_sym : forallb (fun r => match symbol_number symbol_map (row_symbol r) with Some n => Nat.eqb n (row_number r) | None => String.eqb (row_symbol r) "X" end) atom_data = true. Proof. vm_compute. reflexivity. Qed.
Lemma chk_nonneg : forallb (fun r => Z.leb 0 (snd r)) atom_data = true. Proof. vm_compute. reflexivity. Qed.
Lemma chk_zero : forallb (fun r => Z.eqb (snd r) 0 || negb (Z.eqb (zt r) 0)) atom_data = true. Proof. vm_compute. reflexivity. Qed.
Lemma chk_tenths : forallb (fun r => Z.eqb (zt r) 0 || Nat.eqb (List.length (filter (fun s => Z.eqb (zt r) (zt s)) atom_data)) 1) atom_data = true. Proof. vm_compute. reflexivity. Qed.
Lemma chk_names : forallb (fun r => forallb (fun s => implb (String.eqb (row_symbol r) (row_symbol s)) (Nat.eqb (row_number r) (row_number s))) atom_data) atom_data = true. Proof. vm_compute. reflexivity. Qed.
Definition X_row : nat * string * string * Z := (0%nat, "X"%string, "X"%string, 0%Z).
Lemma X_in : In X_row atom_data. Proof. left. reflexivity. Qed.
Lemma X_unknown : symbol_number symbol_map "X" = None. Proof. vm_compute. reflexivity. Qed.
Opaque atom_data symbol_map.

Lemma data_at n r : nth_error atom_data n = Some r -> row_number r = n.
Proof.
  intros E. assert (T := chk_pos). assert (L := chk_len). rewrite forallb_forall in T. assert (Hn : (n < 119)%nat) by (rewrite <- L; apply nth_error_Some; congruence).
  specialize (T (n, r)). cbn in T. apply Nat.eqb_eq, T.
  assert (G : forall (l : list (nat * string * string * Z)) k i x, nth_error l i = Some x -> In (k + i, x)%nat (combine (seq k (List.length l)) l)).
  { clear. induction l as [|y l IH]; intros k [|i] x E; cbn in E; try discriminate.
    - injection E as <-. left. f_equal. lia.
    - right. replace (k + S i)%nat with (S k + i)%nat by lia. apply IH, E. }
  assert (G' := G _ 0%nat _ _ E). rewrite L in G'. exact G'.
Qed.
Lemma row_position r : In r atom_data -> nth_error atom_data (row_number r) = Some r.
Proof. intros H. apply In_nth_error in H. destruct H as [n E]. rewrite (data_at _ _ E). exact E. Qed.
Lemma map_sound s n : symbol_number symbol_map s = Some n -> exists r, nth_error atom_data n = Some r /\ row_symbol r = s.
Proof.
  intros E. assert (T := chk_map).
  rewrite forallb_forall in T. assert (I : In (s, n) symbol_map).
  { revert E. generalize symbol_map. clear. induction l as [|[t m] l IH]; cbn; [discriminate|]. destruct (String.eqb_spec t s) as [->|]; intros E; [injection E as ->; left; reflexivity|right; apply IH, E]. }
  specialize (T _ I). cbn in T. destruct (nth_error atom_data n) as [r|]; [|discriminate]. exists r. split; [reflexivity|]. apply String.eqb_eq, T.
Qed.
Lemma map_complete r : In r atom_data -> row_symbol r <> "X"%string -> symbol_number symbol_map (row_symbol r) = Some (row_number r).
Proof.
  intros I N. assert (T := chk_sym).
  rewrite forallb_forall in T. specialize (T _ I). destruct (symbol_number _ _) as [n|]; [apply Nat.eqb_eq in T; congruence|]. apply String.eqb_eq in T. contradiction.
Qed.
Lemma mass_nonneg r : In r atom_data -> (0 <= snd r)%Z.
Proof.
  intros I. assert (T := chk_nonneg).
  rewrite forallb_forall in T. apply Z.leb_le, (T _ I).
Qed.
Lemma mass_zero r : In r atom_data -> zt r = 0%Z <-> snd r = 0%Z.
Proof.
  intros I. split; intros E.
  - assert (T := chk_zero).
    rewrite forallb_forall in T. specialize (T _ I). cbv beta in T. rewrite E in T. cbn in T. rewrite orb_false_r in T. apply Z.eqb_eq, T.
  - unfold zt. rewrite E. reflexivity.
Qed.
Lemma mass_unique r : In r atom_data -> snd r <> 0%Z -> filter (fun s => Z.eqb (zt r) (zt s)) atom_data = [r].
Proof.
  intros I N. assert (T := chk_tenths).
  rewrite forallb_forall in T. specialize (T _ I). cbv beta in T. apply orb_prop in T. destruct T as [T|T].
  - apply Z.eqb_eq in T. apply mass_zero in T; [contradiction|exact I].
  - apply Nat.eqb_eq in T. assert (J : In r (filter (fun s => Z.eqb (zt r) (zt s)) atom_data)) by (apply filter_In; split; [exact I|apply Z.eqb_refl]).
    destruct (filter _ atom_data) as [|x [|y l]]; cbn in T; try lia. destruct J as [->|[]]. reflexivity.
Qed.
Lemma symbol_unique r s : In r atom_data -> In s atom_data -> row_symbol r = row_symbol s -> r = s.
Proof.
  intros I J E. assert (T := chk_names).
  rewrite forallb_forall in T. specialize (T _ I). cbv beta in T. rewrite forallb_forall in T. specialize (T _ J). cbv beta in T. rewrite E, String.eqb_refl in T. cbn in T. apply Nat.eqb_eq in T.
  assert (A := row_position _ I). assert (B := row_position _ J). rewrite T in A. congruence.
Qed.

(** what one mass contributes *)
Definition of_mass (x : R) : list string := flat_map (fun j => if Z.eqb (tenths x) (tenths (row_mass j)) then [row_symbol j] else []) atom_data.
Lemma of_mass_filter x : of_mass x = map row_symbol (filter (fun j => Z.eqb (tenths x) (zt j)) atom_data).
Proof.
  unfold of_mass. induction atom_data as [|j l IH]; [reflexivity|]. cbn. rewrite IH, tenths_row. unfold zt at 2. destruct (Z.eqb _ _); reflexivity.
Qed.
Lemma mass_pos r : In r atom_data -> 0 < row_mass r <-> snd r <> 0%Z.
Proof.
  intros I. assert (H := mass_nonneg _ I). unfold row_mass. split; intros A.
  - intros E. rewrite E in A. lra.
  - assert (0 < IZR (snd r)) by (apply IZR_lt; lia). lra.
Qed.
Lemma tells_of_mass x e : tells x e -> of_mass x = [e].
Proof.
  intros (n & m & (name & z & I & ->) & P & S). unfold same_digits in S. set (r := (n, e, name, z)) in *.
  change (IZR z / 100000000) with (row_mass r) in *. rewrite tenths_row in S. rewrite of_mass_filter, S.
  change (zhalf (snd r) 10000000) with (zt r). rewrite mass_unique; [reflexivity|exact I|]. apply mass_pos; assumption.
Qed.
Lemma of_mass_cases x : (exists e, tells x e) \/ In "X"%string (of_mass x) \/ of_mass x = [].
Proof.
  destruct (of_mass x) as [|e l] eqn:E; [right; right; reflexivity|].
  assert (I : In e (of_mass x)) by (rewrite E; left; reflexivity). rewrite of_mass_filter in I. apply in_map_iff in I. destruct I as (r & ? & I).
  apply filter_In in I. destruct I as [I Z]. apply Z.eqb_eq in Z.
  destruct (Z.eq_dec (snd r) 0) as [N|N].
  - right. left. rewrite <- E, of_mass_filter. apply in_map_iff. exists X_row. split; [reflexivity|]. apply filter_In. split; [apply X_in|]. apply Z.eqb_eq. rewrite Z. apply mass_zero; assumption.
  - left. exists e. destruct r as [[[n e'] name] z]. cbn in *. subst e'. exists n, (IZR z / 100000000). split; [exists name, z; split; [exact I|reflexivity]|]. split.
    + apply (mass_pos _ I). exact N.
    + unfold same_digits. rewrite Z. symmetry. exact (tenths_row (n, e, name, z)).
Qed.
Lemma tells_nonX x e : tells x e -> e <> "X"%string.
Proof.
  intros (n & m & (name & z & I & ->) & P & _) ->. assert (E := symbol_unique (n, "X"%string, name, z) X_row I X_in eq_refl). injection E as -> -> ->. lra.
Qed.
Lemma all_defined_map {A B} (f : A -> option B) l : (exists r, all_defined (map f l) = Some r) <-> Forall (fun x => f x <> None) l.
Proof.
  induction l as [|x l IH]; cbn.
  - split; [constructor|eexists; reflexivity].
  - destruct (f x) as [y|] eqn:E.
    + split.
      * intros [r H]. destruct (all_defined (map f l)) eqn:F; [|discriminate]. constructor; [congruence|]. apply IH. eexists; reflexivity.
      * intros H. inversion H; subst. destruct (proj2 IH H3) as [r ->]. eexists; reflexivity.
    + split; [intros [r H]; discriminate|]. intros H. inversion H; contradiction.
Qed.
Lemma all_defined_forall2 {A B} (f : A -> option B) l r : all_defined (map f l) = Some r -> Forall2 (fun x y => f x = Some y) l r.
Proof.
  revert r. induction l as [|x l IH]; cbn; intros r H.
  - injection H as <-. constructor.
  - destruct (f x) as [y|] eqn:E; [|discriminate]. destruct (all_defined (map f l)) eqn:F; [|discriminate]. injection H as <-. constructor; [exact E|apply IH; reflexivity].
Qed.
Lemma forall2_all_defined {A B} (f : A -> option B) l r : Forall2 (fun x y => f x = Some y) l r -> all_defined (map f l) = Some r.
Proof. induction 1 as [|x y l r E _ IH]; cbn; [reflexivity|]. rewrite E, IH. reflexivity. Qed.
Lemma known_row e n : symbol_number symbol_map e = Some n -> exists m, tabulated e n m.
Proof.
  intros H. destruct (map_sound _ _ H) as ([[[n' e'] name] z] & E & S). cbn in S. subst e'.
  assert (N := data_at _ _ E). cbn in N. subst n'. exists (IZR z / 100000000), name, z. split; [eapply nth_error_In, E|reflexivity].
Qed.
Lemma tabulated_known e n m : tabulated e n m -> e <> "X"%string -> symbol_number symbol_map e = Some n.
Proof. intros (name & z & I & _) N. exact (map_complete _ I N). Qed.
Lemma tabulated_fun e n m n' m' : tabulated e n m -> tabulated e n' m' -> n = n' /\ m = m'.
Proof. intros (na & z & I & ->) (na' & z' & I' & ->). assert (E := symbol_unique _ _ I I' eq_refl). injection E as -> -> ->. split; reflexivity. Qed.
Lemma tabulated_at e n m : tabulated e n m -> option_map row_mass (nth_error atom_data n) = Some m.
Proof. intros (name & z & I & ->). assert (E := row_position _ I). cbn in E. rewrite E. reflexivity. Qed.

Lemma elements_flat masses : elements_of_masses masses = flat_map of_mass masses. Proof. reflexivity. Qed.
(** constructor with masses only *)
Lemma init_masses masses : init_species (Some masses) None None =
  match all_defined (map (symbol_number symbol_map) (elements_of_masses masses)) with Some n => Some (MkSpecies (Some (elements_of_masses masses)) (Some n) masses) | None => None end.
Proof. unfold init_species. destruct (all_defined _); reflexivity. Qed.
Lemma init_masses_exact masses es : Forall2 tells masses es ->
  exists numbers, init_species (Some masses) None None = Some (MkSpecies (Some es) (Some numbers) masses) /\ Forall2 (fun e n => exists m, tabulated e n m) es numbers.
Proof.
  intros H. assert (E : elements_of_masses masses = es).
  { rewrite elements_flat. induction H as [|x e l es T _ IH]; [reflexivity|]. cbn [flat_map]. rewrite IH, (tells_of_mass _ _ T). reflexivity. }
  rewrite init_masses, E. destruct (proj2 (all_defined_map (symbol_number symbol_map) es)) as [ns Hn].
  { clear E. induction H as [|x e l es T _ IH]; constructor; [|exact IH]. destruct T as (n & m & Ht & P & S). rewrite (tabulated_known e n m Ht); [discriminate|]. eapply tells_nonX. exists n, m. split; [exact Ht|split; eassumption]. }
  exists ns. rewrite Hn. split; [reflexivity|]. apply all_defined_forall2 in Hn. clear - Hn. induction Hn; constructor; [apply known_row; assumption|assumption].
Qed.
Lemma init_masses_some masses sp : init_species (Some masses) None None = Some sp ->
  sp_elements sp = Some (elements_of_masses masses) /\ Forall (fun x => (exists e, tells x e) \/ of_mass x = []) masses.
Proof.
  rewrite init_masses. destruct (all_defined _) as [ns|] eqn:E; [|discriminate]. intros H. injection H as <-. split; [reflexivity|].
  assert (F : Forall (fun e => symbol_number symbol_map e <> None) (elements_of_masses masses)) by (apply all_defined_map; eexists; exact E).
  rewrite elements_flat in F. rewrite Forall_forall in *. intros x Hx. destruct (of_mass_cases x) as [A|[A|A]]; [left; exact A| |right; exact A].
  exfalso. apply (F "X"%string); [apply in_flat_map; exists x; split; assumption|apply X_unknown].
Qed.

(** * types by element *)
Definition pick (numbers : list nat) (ni : nat) (t index : nat) : nat := if Nat.eqb (nth index numbers O) ni then index else t.
Lemma pick_none numbers ni l t : (forall k, In k l -> nth k numbers O <> ni) -> fold_left (pick numbers ni) l t = t.
Proof.
  revert t. induction l as [|k l IH]; intros t H; cbn; [reflexivity|]. unfold pick at 2. destruct (Nat.eqb_spec (nth k numbers O) ni) as [E|E].
  - exfalso. apply (H k); [left; reflexivity|exact E].
  - apply IH. intros j J. apply H. right. exact J.
Qed.
Lemma pick_unique numbers ni l t k : In k l -> nth k numbers O = ni -> (forall j, In j l -> nth j numbers O = ni -> j = k) -> fold_left (pick numbers ni) l t = k.
Proof.
  revert t. induction l as [|a l IH]; intros t I E U; [contradiction|]. cbn.
  destruct (in_dec Nat.eq_dec k l) as [J|J].
  - apply IH; [exact J|exact E|]. intros j Hj. apply U. right. exact Hj.
  - destruct I as [->|I]; [|contradiction]. unfold pick at 2. rewrite E, Nat.eqb_refl. apply pick_none. intros j Hj Ej. apply J. rewrite <- (U j); [exact Hj|right; exact Hj|exact Ej].
Qed.
Lemma nth_firstn {A} (l : list A) k n d : (k < n)%nat -> nth k (firstn n l) d = nth k l d.
Proof. revert k n. induction l as [|x l IH]; intros k n H; destruct n, k; cbn; try reflexivity; try lia. apply IH. lia. Qed.
Lemma types_by_element_ok numbers :
  NoDup (firstn (List.length (nodup Nat.eq_dec numbers)) numbers) ->
  labels_elements numbers (types_by_element numbers) /\ Forall (fun t => (t < List.length (nodup Nat.eq_dec numbers))%nat) (types_by_element numbers).
Proof.
  set (nt := List.length (nodup Nat.eq_dec numbers)). intros ND.
  assert (Len : (nt <= List.length numbers)%nat).
  { unfold nt. clear. induction numbers as [|x l IH]; cbn; [lia|]. destruct (in_dec Nat.eq_dec x l); cbn; lia. }
  assert (FL : List.length (firstn nt numbers) = nt) by (rewrite firstn_length; lia).
  assert (Inc : incl (nodup Nat.eq_dec numbers) (firstn nt numbers)).
  { apply NoDup_length_incl; [exact ND|rewrite FL; unfold nt; lia|]. intros x Hx. apply nodup_In. rewrite <- (firstn_skipn nt numbers). apply in_or_app. left. exact Hx. }
  assert (K : forall x, In x numbers -> exists k, (k < nt)%nat /\ nth k numbers O = x).
  { intros x Hx. assert (F : In x (firstn nt numbers)) by (apply Inc, nodup_In, Hx). apply (In_nth _ _ O) in F. destruct F as (k & Hk & E). exists k. rewrite FL in Hk. split; [exact Hk|]. rewrite <- E. symmetry. apply nth_firstn, Hk. }
  assert (U : forall j k, (j < nt)%nat -> (k < nt)%nat -> nth j numbers O = nth k numbers O -> j = k).
  { intros j k Hj Hk E. rewrite (NoDup_nth (firstn nt numbers) O) in ND. apply ND; [rewrite FL; exact Hj|rewrite FL; exact Hk|]. rewrite !nth_firstn by assumption. exact E. }
  assert (L : forall x, In x numbers -> let t := fold_left (pick numbers x) (seq 0 nt) x in (t < nt)%nat /\ nth t numbers O = x).
  { intros x Hx. destruct (K x Hx) as (k & Hk & E). cbv zeta. rewrite (pick_unique numbers x (seq 0 nt) x k).
    - split; assumption.
    - apply in_seq. lia.
    - exact E.
    - intros j Hj Ej. apply in_seq in Hj. apply U; [lia|exact Hk|]. congruence. }
  assert (TE : types_by_element numbers = map (fun x => fold_left (pick numbers x) (seq 0 nt) x) numbers) by reflexivity.
  rewrite TE. split.
  - split; [apply map_length|]. intros i j Hi Hj.
    rewrite !(nth_indep (map _ numbers) O (fold_left (pick numbers O) (seq 0 nt) O)) by (rewrite map_length; assumption).
    rewrite !(map_nth (fun x => fold_left (pick numbers x) (seq 0 nt) x)).
    destruct (L (nth i numbers O) (nth_In _ _ Hi)) as [_ A]. destruct (L (nth j numbers O) (nth_In _ _ Hj)) as [_ B]. cbv zeta in A, B.
    split; intros E; [|rewrite E; reflexivity]. rewrite E in A. congruence.
  - apply Forall_forall. intros t Ht. apply in_map_iff in Ht. destruct Ht as (x & <- & Hx). exact (proj1 (L x Hx)).
Qed.
Lemma nodup_two (z : nat) n m : z <> 1%nat -> List.length (nodup Nat.eq_dec (repeat z (S n) ++ repeat 1%nat (S m))) = 2%nat.
Proof.
  intros Hz. assert (A : nodup Nat.eq_dec (repeat 1%nat (S m)) = [1%nat]).
  { induction m as [|m IH]; [reflexivity|]. change (repeat 1%nat (S (S m))) with (1%nat :: repeat 1%nat (S m)). cbn [nodup]. destruct (in_dec Nat.eq_dec 1%nat (repeat 1%nat (S m))) as [_|H]; [exact IH|]. exfalso. apply H. left. reflexivity. }
  assert (B : nodup Nat.eq_dec (repeat z (S n) ++ repeat 1%nat (S m)) = [z; 1%nat]).
  { induction n as [|n IH].
    - assert (NI : ~ In z (repeat 1%nat (S m))) by (intros H; apply repeat_spec in H; contradiction). revert A NI. change (repeat z 1 ++ repeat 1%nat (S m)) with (z :: repeat 1%nat (S m)). generalize (repeat 1%nat (S m)) as L. intros L A NI. cbn [nodup]. rewrite A. destruct (in_dec Nat.eq_dec z L) as [H|_]; [contradiction|reflexivity].
    - change (repeat z (S (S n))) with (z :: repeat z (S n)). rewrite <- app_comm_cons. cbn [nodup]. destruct (in_dec Nat.eq_dec z _) as [_|H]; [exact IH|]. exfalso. apply H. left. reflexivity. }
  rewrite B. reflexivity.
Qed.
Lemma types_by_element_merged z n m : z <> 1%nat ->
  types_by_element (repeat z (S (S n)) ++ repeat 1%nat (S m)) = repeat 1%nat (S (S n) + S m).
Proof.
  intros Hz. unfold types_by_element. rewrite (nodup_two z (S n) m Hz). set (N := repeat z (S (S n)) ++ repeat 1%nat (S m)).
  assert (E0 : nth 0 N O = z) by reflexivity. assert (E1 : nth 1 N O = z) by reflexivity.
  change (seq 0 2) with [0; 1]%nat. cbn [fold_left]. rewrite E0, E1.
  rewrite (map_ext_in _ (fun _ => 1%nat)).
  - unfold N. rewrite map_app, repeat_app. f_equal; clear; [generalize (S (S n)) as k|generalize (S m) as k]; induction k as [|k IH]; cbn; congruence.
  - intros x Hx. unfold N in Hx. apply in_app_or in Hx. destruct Hx as [Hx|Hx]; apply repeat_spec in Hx; subst x.
    + rewrite Nat.eqb_refl. reflexivity.
    + destruct (Nat.eqb_spec z 1); [contradiction|reflexivity].
Qed.

(** * write_xsf_file *)
Lemma first_of_type_spec types : forall i c, match first_of_type types i c with
  | Some k => (i <= k)%nat /\ nth_error types (k - i) = Some c /\ forall j, (j < k - i)%nat -> nth_error types j <> Some c
  | None => ~ In c types end.
Proof.
  induction types as [|t types IH]; intros i c; cbn [first_of_type]; [tauto|]. destruct (Nat.eqb_spec t c) as [->|N].
  - split; [lia|]. rewrite Nat.sub_diag. split; [reflexivity|lia].
  - specialize (IH (S i) c). destruct (first_of_type types (S i) c) as [k|].
    + destruct IH as (A & B & C). split; [lia|]. replace (k - i)%nat with (S (k - S i)) by lia. split; [exact B|]. intros [|j] Hj; cbn; [congruence|apply C; lia].
    + intros [E|I]; [congruence|contradiction].
Qed.
Definition firsts (types : list nat) (c : nat) : nat := match first_of_type types 0 c with Some k => k | None => O end.
Lemma xsf_loop_runs types n fuel : forall c w, (c <= n)%nat -> (forall t, (c <= t < n)%nat -> In t types) -> (n - c <= fuel)%nat ->
  xsf_loop types n fuel c w = Some (w ++ map (firsts types) (seq c (n - c))).
Proof.
  induction fuel as [|fuel IH]; intros c w H A F; cbn [xsf_loop]; destruct (Nat.ltb_spec c n); try lia.
  - replace (n - c)%nat with O by lia. cbn. rewrite app_nil_r. reflexivity.
  - replace (n - c)%nat with (S (n - S c)) by lia. cbn [seq map]. assert (P := first_of_type_spec types 0 c). unfold firsts at 1.
    destruct (first_of_type types 0 c) as [k|]; [|exfalso; apply P, A; lia]. rewrite IH; [|lia|intros t Ht; apply A; lia|lia]. rewrite <- app_assoc. reflexivity.
  - replace (n - c)%nat with O by lia. cbn. rewrite app_nil_r. reflexivity.
Qed.
Lemma xsf_loop_fuel_stuck types n fuel : forall c w t, (c <= t < n)%nat -> ~ In t types -> xsf_loop types n fuel c w = None.
Proof.
  induction fuel as [|fuel IH]; intros c w t H N; cbn [xsf_loop]; destruct (Nat.ltb_spec c n); try lia; [reflexivity|].
  assert (P := first_of_type_spec types 0 c). destruct (first_of_type types 0 c) as [k|]; [|apply (IH _ _ t H N)].
  apply (IH _ _ t); [|exact N]. destruct (Nat.eq_dec c t) as [->|]; [|lia]. exfalso. apply N. destruct P as (_ & E & _). rewrite Nat.sub_0_r in E. eapply nth_error_In, E.
Qed.
