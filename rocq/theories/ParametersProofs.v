From Verif Require Import ParametersModel ParametersSpec.
From Coq Require Import Lia.
Section P.
Context {V : Type}.
Implicit Types d : dict V.
Lemma lookup_store k k' v d : lookup k (store k' v d) = if String.eqb k k' then Some v else lookup k d.
Proof.
  induction d as [|[a w] d IH]; cbn [store lookup]; [reflexivity|].
  destruct (String.eqb_spec k' a) as [->|N]; cbn [lookup].
  - destruct (String.eqb k a); reflexivity.
  - rewrite IH. destruct (String.eqb_spec k a) as [->|N2]; [|reflexivity]. destruct (String.eqb_spec a k'); [congruence|reflexivity].
Qed.
Definition key (n : string) : string * string := match find_property n properties with Some gs => gs | None => (n, n) end.
Lemma read_key n d : read n d = lookup (fst (key n)) d.
Proof. unfold read, key. destruct (find_property n properties) as [[g s]|]; reflexivity. Qed.
Lemma assign_key n (v : V) d : assign n v d = store (snd (key n)) v d.
Proof. unfold assign, key. destruct (find_property n properties) as [[g s]|]; reflexivity. Qed.
Definition broken := "save_renormalized_frequencies".
(** facts about the table, by computation *)
Lemma table_same : forallb (fun n => orb (String.eqb n broken) (String.eqb (fst (key n)) (snd (key n)))) names = true.
Proof. vm_compute. reflexivity. Qed.
Lemma table_frame : forallb (fun n => forallb (fun m => orb (String.eqb n m) (negb (String.eqb (fst (key m)) (snd (key n))))) names) names = true.
Proof. vm_compute. reflexivity. Qed.
Lemma set_get n (v : V) d : In n names -> n <> broken -> read n (assign n v d) = Some v.
Proof.
  intros Hn Hb. rewrite read_key, assign_key, lookup_store. assert (T := table_same). rewrite forallb_forall in T. specialize (T n Hn).
  apply Bool.orb_prop in T as [T|T]; [apply String.eqb_eq in T; congruence|]. rewrite T. reflexivity.
Qed.
Lemma set_frame n m (v : V) d : In n names -> In m names -> n <> m -> read m (assign n v d) = read m d.
Proof.
  intros Hn Hm Ne. rewrite !read_key, assign_key, lookup_store. assert (T := table_frame). rewrite forallb_forall in T. specialize (T n Hn).
  rewrite forallb_forall in T. specialize (T m Hm). apply Bool.orb_prop in T as [T|T]; [apply String.eqb_eq in T; congruence|].
  destruct (String.eqb (fst (key m)) (snd (key n))); [discriminate|reflexivity].
Qed.
Lemma set_broken (v : V) d : read broken (assign broken v d) = read broken d.
Proof. rewrite !read_key, assign_key, lookup_store. reflexivity. Qed.
Lemma set_unknown n m (v : V) d : ~ In n names -> In m names -> ~ In n (map (fun m => fst (key m)) names) -> read m (assign n v d) = read m d.
Proof.
  intros Hn Hm Hk. rewrite !read_key, assign_key, lookup_store.
  assert (E : key n = (n, n)).
  { unfold key. assert (F : find_property n properties = None); [|rewrite F; reflexivity]. assert (Hn' : ~ In n (map fst properties)) by exact Hn. clear -Hn'.
    induction properties as [|[a gs] l IH]; [reflexivity|]. cbn [find_property map In fst] in Hn' |- *. destruct (String.eqb_spec n a); [subst; tauto|]. apply IH. tauto. }
  rewrite E. cbn [snd]. destruct (String.eqb_spec (fst (key m)) n) as [<-|]; [|reflexivity]. exfalso. apply Hk. apply in_map_iff. exists m. split; [reflexivity|exact Hm].
Qed.
Lemma load_lookup k (data d : dict V) : lookup k (get_data_from_dict data d) = match lookup k d with None => None | Some v => match lookup k data with Some w => Some w | None => Some v end end.
Proof.
  induction d as [|[a w] d IH]; [reflexivity|]. cbn [get_data_from_dict map lookup fst snd]. destruct (String.eqb_spec k a) as [->|N].
  - destruct (lookup a data); reflexivity.
  - exact IH.
Qed.
Lemma init_reads (args : string -> V) : forallb (fun n => match lookup (fst (key n)) (init args) with Some _ => true | None => false end) names = true.
Proof. reflexivity. Qed.
Lemma init_read n (args : string -> V) : In n names -> exists v, read n (init args) = Some v.
Proof.
  intros H. assert (T := init_reads args). rewrite forallb_forall in T. specialize (T n H). rewrite read_key. destruct (lookup _ _) as [v|]; [exists v; reflexivity|discriminate].
Qed.
Lemma key_underscore n : In n names -> fst (key n) = ("_" ++ n)%string.
Proof. intros H. vm_compute in H. repeat (destruct H as [<-|H]; [reflexivity|]). destruct H. Qed.
(** the last assignment to a property wins, whatever happens in between *)
Lemma run_last l : forall d n, In n names -> n <> broken -> Forall known l -> read n (run l d) = last_value n l (read n d).
Proof.
  induction l as [|s l IH]; intros d n Hn Hb Hl; [reflexivity|]. inversion Hl as [|? ? Hs Ht]; subst. unfold run. cbn [fold_left]. fold (run l (do_step s d)).
  rewrite IH by assumption. destruct s as [m w|data]; cbn [do_step last_value known] in *.
  - f_equal. destruct (String.eqb_spec n m) as [->|N]; [apply set_get; assumption|apply set_frame; auto].
  - f_equal. rewrite !read_key, load_lookup, <- (key_underscore n Hn). destruct (lookup (fst (key n)) d); reflexivity.
Qed.
Lemma run_broken l : forall d, Forall (fun s => match s with Assign m _ => In m names | Load data => lookup "_save_renormalized_frequencies" data = None end) l -> read broken (run l d) = read broken d.
Proof.
  induction l as [|s l IH]; intros d Hl; [reflexivity|]. inversion Hl as [|? ? Hs Ht]; subst. unfold run. cbn [fold_left]. fold (run l (do_step s d)).
  rewrite IH by assumption. destruct s as [m w|data]; cbn [do_step].
  - destruct (String.eqb_spec m broken) as [->|N]; [apply set_broken|]. apply set_frame; [exact Hs|vm_compute; tauto|exact N].
  - rewrite !read_key, load_lookup. change (fst (key broken)) with "_save_renormalized_frequencies". rewrite Hs. destruct (lookup _ d); reflexivity.
Qed.
Lemma second_instance (args args' : string -> V) : fst (construct args' (snd (construct args None))) = fst (construct args None).
Proof. reflexivity. Qed.
End P.
