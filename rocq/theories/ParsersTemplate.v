(** argsort of a template (C42). *)
From Verif Require Import ParsersModel ParsersSpec ParsersProofs.
From Coq Require Import Permutation.
Local Open Scope nat_scope.
Lemma perm_bound n p i : Permutation p (seq 0 n) -> i < n -> nth i p 0 < n.
Proof.
  intros P Hi. assert (In (nth i p 0) (seq 0 n)). { apply (Permutation_in _ P). apply nth_In. rewrite (Permutation_length P), seq_length. exact Hi. }
  apply in_seq in H. lia.
Qed.
Lemma perm_inj n p i j : Permutation p (seq 0 n) -> i < n -> j < n -> nth i p 0 = nth j p 0 -> i = j.
Proof.
  intros P Hi Hj E. assert (N : NoDup p) by (apply (Permutation_NoDup (Permutation_sym P)), seq_NoDup).
  assert (Lp : List.length p = n) by (rewrite (Permutation_length P), seq_length; reflexivity).
  apply (proj1 (NoDup_nth p 0) N); [lia|lia|exact E].
Qed.
(** a strictly increasing self-map of [0,n) is the identity *)
Lemma increasing_id n (f : nat -> nat) : (forall i, i < n -> f i < n) -> (forall i j, i < j < n -> f i < f j) -> forall i, i < n -> f i = i.
Proof.
  intros B M.
  assert (Lo : forall i, i < n -> i <= f i). { induction i as [|i IH]; intros Hi; [lia|]. assert (X := M i (S i) ltac:(lia)). assert (Y := IH ltac:(lia)). lia. }
  assert (Hi_ : forall k i, n = i + S k -> f i <= i). { induction k as [|k IH]; intros i Ei; [assert (X := B i ltac:(lia)); lia|]. assert (X := M i (S i) ltac:(lia)). assert (Y := IH (S i) ltac:(lia)). lia. }
  intros i Hi. assert (X := Lo i Hi). assert (Y := Hi_ (n - S i) i ltac:(lia)). lia.
Qed.
Lemma argsort_inverse s p : Permutation s (seq 0 (List.length s)) -> sorts (map INR s) p ->
  forall j, j < List.length s -> nth (nth j p 0) s 0 = j.
Proof.
  intros Hs [Hp Hsort]. rewrite map_length in *. set (n := List.length s) in *.
  assert (K : forall i, i < n -> nth i (map INR s) 0%R = INR (nth i s 0)). { intros i Hi. rewrite (nth_indep _ 0%R (INR 0)) by (rewrite map_length; exact Hi). apply map_nth. }
  assert (Bp : forall i, i < n -> nth i p 0 < n) by (intros; apply perm_bound; assumption).
  apply (increasing_id n (fun j => nth (nth j p 0) s 0)).
  - intros i Hi. apply perm_bound; [exact Hs|apply Bp, Hi].
  - intros i j Hij. assert (X := Hsort i j Hij). rewrite !K in X by (apply Bp; lia). apply INR_le in X.
    destruct (Nat.eq_dec (nth (nth i p 0) s 0) (nth (nth j p 0) s 0)) as [E|E]; [|lia].
    apply (perm_inj n s) in E; [|exact Hs|apply Bp; lia|apply Bp; lia]. apply (perm_inj n p) in E; [lia|exact Hp|lia|lia].
Qed.
Lemma argsort_inverse' s p : Permutation s (seq 0 (List.length s)) -> sorts (map INR s) p ->
  forall i, i < List.length s -> nth (nth i s 0) p 0 = i.
Proof.
  intros Hs Hp i Hi. assert (B := perm_bound _ s i Hs Hi). assert (E := argsort_inverse s p Hs Hp _ B).
  destruct Hp as [Hp _]. rewrite map_length in Hp. apply (perm_inj (List.length s) s); [exact Hs|apply perm_bound; assumption|exact Hi|exact E].
Qed.
Lemma pick_perm {A} (d : A) p l : Permutation p (seq 0 (List.length l)) -> Permutation (map (fun i => nth i l d) p) l.
Proof.
  intros P. transitivity (map (fun i => nth i l d) (seq 0 (List.length l))); [apply Permutation_map, P|].
  clear. assert (E : map (fun i => nth i l d) (seq 0 (List.length l)) = l); [|rewrite E; reflexivity].
  induction l as [|x l IH]; [reflexivity|]. cbn [List.length seq map nth]. f_equal. rewrite <- seq_shift, map_map. exact IH.
Qed.
Lemma arranged argsort t f : sorts t (argsort t) -> List.length t = List.length f -> Permutation (arrange argsort (Some t) f) f.
Proof. intros [P _] E. apply pick_perm. rewrite <- E. exact P. Qed.
Lemma arranged_at argsort s f i : Permutation s (seq 0 (List.length f)) -> sorts (map INR s) (argsort (map INR s)) -> i < List.length f ->
  nth_error (arrange argsort (Some (map INR s)) f) (nth i s 0) = nth_error f i.
Proof.
  intros Hs Hp Hi. assert (Ls : List.length s = List.length f) by (rewrite (Permutation_length Hs), seq_length; reflexivity). rewrite <- Ls in Hs, Hi.
  assert (E := argsort_inverse' s _ Hs Hp i Hi). assert (B := perm_bound _ s i Hs Hi). destruct Hp as [Hp _]. rewrite map_length in Hp.
  cbn [arrange]. rewrite nth_error_map. rewrite (nth_error_nth' _ 0) by (rewrite (Permutation_length Hp), seq_length; exact B). cbn [option_map]. rewrite E. symmetry. apply nth_error_nth'. lia.
Qed.
Lemma template_ok_sorts argsort n t : sorts t (argsort t) -> List.length t = n -> template_ok argsort n (Some t).
Proof. intros [P _] E. cbn. apply Forall_forall. intros i Hi. apply (Permutation_in _ P) in Hi. apply in_seq in Hi. lia. Qed.
