(** C101: memory balance of the C extensions. *)
From Verif Require Import LedgerModel.
From Verif Require MemModel MemSpec MemProofs CMem.
From Coq Require Import Reals Lra.
Open Scope nat_scope.
Open Scope ledger_scope.

(** ---------- specification ---------- *)
(** heaps that arise: block identifiers are distinct and older than the next one *)
Definition wf (h : heap) : Prop := NoDup (map fst (live h)) /\ forall b, In b (live h) -> fst b < next h.
(** bytes of malloc'ed memory and number of Python references held *)
Definition size (k : kind) : nat := match k with Bytes n => n | Reference => 0 end.
Definition is_reference (k : kind) : nat := match k with Bytes _ => 0 | Reference => 1 end.
Definition total (f : kind -> nat) (l : list block) : nat := fold_right (fun b s => f (snd b) + s) 0 l.
Definition bytes (h : heap) : nat := total size (live h).
Definition references (h : heap) : nat := total is_reference (live h).
(** k calls in a row, the caller releasing each result *)
Fixpoint calls (k : nat) (m : prog nat) : prog unit := match k with O => ret tt | S k => r <- m; release r ;; calls k m end.

(** ---------- separation logic ---------- *)
(** m, given the blocks pre (and any others, untouched), does nothing undefined and ends owning post instead *)
Definition triple {A} (pre : list block) (m : prog A) (post : A -> list block -> Prop) : Prop :=
  forall h F, wf h -> Permutation (live h) (pre ++ F) -> exists a h' L, m h = Some (a, h') /\ wf h' /\ Permutation (live h') (L ++ F) /\ post a L.
Lemma drop_in id k : forall l, In (id, k) l -> exists l', drop id l = Some l'.
Proof.
  induction l as [|[i k'] l IH]; [intros []|]. cbn. intros I. destruct (i =? id) eqn:E; [eexists; reflexivity|].
  destruct I as [X|I]; [injection X as <- <-; rewrite Nat.eqb_refl in E; discriminate|]. destruct (IH I) as [l' ->]. eexists; reflexivity.
Qed.
Lemma drop_perm id : forall l l', drop id l = Some l' -> exists k, Permutation l ((id, k) :: l').
Proof.
  induction l as [|[i k'] l IH]; [discriminate|]. cbn. intros l' E. destruct (i =? id) eqn:Ei.
  - injection E as <-. apply Nat.eqb_eq in Ei as ->. exists k'. reflexivity.
  - destruct (drop id l) as [l2|]; [|discriminate]. injection E as <-. destruct (IH l2 eq_refl) as [k P]. exists k. rewrite P. apply perm_swap.
Qed.
Lemma nodup_key id k k' (l : list block) : NoDup (map fst l) -> In (id, k) l -> In (id, k') l -> k = k'.
Proof.
  induction l as [|[i x] l IH]; [intros _ []|]. cbn. intros N [E|I] [E'|I']; inversion N as [|? ? Ni Nl]; subst.
  - congruence.
  - injection E as <- <-. exfalso. apply Ni. apply (in_map fst) in I'. exact I'.
  - injection E' as <- <-. exfalso. apply Ni. apply (in_map fst) in I. exact I.
  - apply IH; assumption.
Qed.
Lemma wf_perm h l : wf h -> Permutation (live h) l -> NoDup (map fst l) /\ forall b, In b l -> fst b < next h.
Proof.
  intros [N B] P. split; [apply (Permutation_NoDup (Permutation_map fst P) N)|]. intros b Hb. apply B. apply (Permutation_in _ (Permutation_sym P)), Hb.
Qed.
Lemma t_ret A (a : A) pre (post : A -> list block -> Prop) : post a pre -> triple pre (ret a) post.
Proof. intros H h F W P. exists a, h, pre. auto. Qed.
Lemma t_bind A B pre (m : prog A) (f : A -> prog B) mid post : triple pre m mid -> (forall a L, mid a L -> triple L (f a) post) -> triple pre (bind m f) post.
Proof.
  intros Hm Hf h F W P. destruct (Hm h F W P) as (a & h1 & L1 & E1 & W1 & P1 & M1). destruct (Hf a L1 M1 h1 F W1 P1) as (b & h2 & L2 & E2 & W2 & P2 & Q).
  exists b, h2, L2. unfold bind. rewrite E1. auto.
Qed.
Lemma t_perm A pre pre' (m : prog A) post : Permutation pre pre' -> triple pre' m post -> triple pre m post.
Proof. intros Q Hm h F W P. apply Hm; [exact W|]. rewrite P, Q. reflexivity. Qed.
Lemma t_frame A pre R (m : prog A) post : triple pre m post -> triple (pre ++ R) m (fun a L => exists L', L = L' ++ R /\ post a L').
Proof.
  intros Hm h F W P. rewrite <- app_assoc in P. destruct (Hm h (R ++ F) W P) as (a & h' & L & E & W' & P' & Q). exists a, h', (L ++ R). rewrite <- app_assoc. repeat split; try assumption; try apply W'.
  exists L. auto.
Qed.
Lemma t_post A pre (m : prog A) (post post' : A -> list block -> Prop) : (forall a L, post a L -> post' a L) -> triple pre m post -> triple pre m post'.
Proof. intros I Hm h F W P. destruct (Hm h F W P) as (a & h' & L & E & W' & P' & Q). exists a, h', L. auto. Qed.
Lemma t_acquire pre k : triple pre (acquire k) (fun a L => L = (a, k) :: pre).
Proof.
  intros h F [N B] P. exists (next h), (MkHeap (S (next h)) ((next h, k) :: live h)), ((next h, k) :: pre). split; [reflexivity|]. split; [|split; [|reflexivity]].
  - split; cbn; [constructor; [|exact N]|].
    + intros I. apply in_map_iff in I as (b & E & I). apply B in I. lia.
    + intros b [<-|I]; [cbn; lia|]. apply B in I. lia.
  - cbn. constructor. exact P.
Qed.
Lemma t_release pre id k rest : Permutation pre ((id, k) :: rest) -> triple pre (release id) (fun _ L => L = rest).
Proof.
  intros Q h F W P. assert (P2 : Permutation (live h) ((id, k) :: (rest ++ F))) by (rewrite P, Q; reflexivity).
  destruct (drop_in id k (live h)) as [l E]; [apply (Permutation_in _ (Permutation_sym P2)); left; reflexivity|].
  destruct (drop_perm id (live h) l E) as [k' P3]. destruct W as [N B].
  assert (k' = k). { apply (nodup_key id k' k (live h) N); [apply (Permutation_in _ (Permutation_sym P3)); left; reflexivity|apply (Permutation_in _ (Permutation_sym P2)); left; reflexivity]. }
  subst k'. assert (P4 : Permutation l (rest ++ F)) by (apply (Permutation_cons_inv (a := (id, k))); rewrite <- P3, <- P2; reflexivity).
  exists tt, (MkHeap (next h) l), rest. unfold release. rewrite E. split; [reflexivity|]. split; [|split; [exact P4|reflexivity]]. split; cbn.
  - apply (Permutation_NoDup (Permutation_map fst P3)) in N. cbn in N. inversion N; assumption.
  - intros b I. apply B. apply (Permutation_in _ (Permutation_sym P3)). right. exact I.
Qed.
(** a program that leaves exactly what it found *)
Definition balanced {A} (m : prog A) : Prop := triple [] m (fun _ L => L = []).
Lemma t_balanced A (m : prog A) pre : balanced m -> triple pre m (fun _ L => L = pre).
Proof. intros H. apply (t_post _ _ _ (fun a L => exists L', L = L' ++ pre /\ L' = [])); [intros a L (L' & -> & ->); reflexivity|]. exact (t_frame _ [] pre m _ H). Qed.
Lemma balanced_repeat n m : balanced m -> balanced (repeat_ n m).
Proof. intros H. induction n as [|n IH]; [apply t_ret; reflexivity|]. cbn. apply (t_bind _ _ _ _ _ (fun _ L => L = [])); [exact H|]. intros a L ->. exact IH. Qed.
Definition rows_of (ids : list nat) (b : nat) : list block := map (fun i => (i, Bytes b)) ids.
Lemma t_malloc_rows n b : triple [] (malloc_rows n b) (fun l L => length l = n /\ Permutation L (rows_of l b)).
Proof.
  induction n as [|n IH]; [apply t_ret; split; reflexivity|]. cbn [malloc_rows].
  apply (t_bind _ _ _ _ _ (fun a L => L = [(a, Bytes b)])); [apply t_acquire|]. intros a L ->.
  eapply t_bind; [exact (t_frame _ [] [(a, Bytes b)] _ _ IH)|]. intros l L (L' & -> & Hl & P). apply t_ret. split; [cbn; lia|].
  cbn. rewrite P, Permutation_app_comm. reflexivity.
Qed.
Lemma t_release_all b : forall ids pre rest, Permutation pre (rows_of ids b ++ rest) -> triple pre (release_all ids) (fun _ L => Permutation L rest).
Proof.
  induction ids as [|i ids IH]; intros pre rest P; [apply t_ret; exact P|]. cbn [release_all]. apply (t_bind _ _ _ _ _ (fun _ L => L = rows_of ids b ++ rest)); [apply (t_release _ i (Bytes b)); exact P|].
  intros _ L ->. apply IH. reflexivity.
Qed.
Definition matrix_blocks (m : matrix) (n b : nat) : list block := (fst m, Bytes (8 * n)) :: rows_of (snd m) b.
Lemma t_new_matrix n b pre : triple pre (new_matrix n b) (fun m L => length (snd m) = n /\ Permutation L (matrix_blocks m n b ++ pre)).
Proof.
  unfold new_matrix. apply (t_bind _ _ _ _ _ (fun p L => L = (p, Bytes (8 * n)) :: pre)); [apply t_acquire|]. intros p L ->.
  eapply t_bind; [exact (t_frame _ [] ((p, Bytes (8 * n)) :: pre) _ _ (t_malloc_rows n b))|]. intros l L (L' & -> & Hl & P). apply t_ret. split; [exact Hl|].
  unfold matrix_blocks. cbn. rewrite P. rewrite <- Permutation_middle. reflexivity.
Qed.
Lemma t_free_matrix m n b pre rest : Permutation pre (matrix_blocks m n b ++ rest) -> triple pre (free_matrix m) (fun _ L => Permutation L rest).
Proof.
  intros P. unfold free_matrix. apply (t_bind _ _ _ _ _ (fun _ L => Permutation L ((fst m, Bytes (8 * n)) :: rest))).
  - apply (t_release_all b (snd m)). rewrite P. unfold matrix_blocks. cbn. apply Permutation_middle.
  - intros ? L Q. eapply t_post; [|apply (t_release L (fst m) (Bytes (8 * n)) rest Q)]. intros _ L' ->. reflexivity.
Qed.
Lemma perm_nil (L : list block) : Permutation L [] -> L = []. Proof. intros P. apply Permutation_nil. symmetry. exact P. Qed.
Lemma scratch_matrix n b (body : prog unit) : balanced body -> balanced (m <- new_matrix n b; body ;; free_matrix m).
Proof.
  intros H. eapply t_bind; [apply (t_new_matrix n b [])|]. intros m L [_ P]. eapply t_bind; [apply t_balanced, H|]. intros _ L' ->.
  eapply t_post; [|exact (t_free_matrix m n b L [] P)]. intros u L' Q. apply perm_nil, Q.
Qed.
Lemma t_Determinant : forall n, balanced (Determinant n).
Proof.
  assert (H : forall n, balanced (Determinant n) /\ balanced (Determinant (S n)) /\ balanced (Determinant (S (S n)))).
  { induction n as [|n (H0 & H1 & H2)]; [repeat split; apply t_ret; reflexivity|]. split; [exact H1|]. split; [exact H2|].
    change (Determinant (S (S (S n)))) with (repeat_ (S (S (S n))) (m <- new_matrix (S (S n)) (8 * S (S n)); Determinant (S (S n)) ;; free_matrix m)).
    apply balanced_repeat, scratch_matrix, H2. }
  intros n. apply H.
Qed.
Lemma t_CoFactor n pre : triple pre (CoFactor n) (fun m L => length (snd m) = n /\ Permutation L (matrix_blocks m n (8 * n) ++ pre)).
Proof.
  unfold CoFactor. eapply t_bind; [apply (t_new_matrix (n - 1) (8 * (n - 1)) pre)|]. intros c L [_ Pc].
  eapply t_bind; [apply t_new_matrix|]. intros b L1 [Hb Pb].
  eapply t_bind; [apply t_balanced, balanced_repeat, balanced_repeat, t_Determinant|]. intros _ L2 ->.
  eapply t_bind; [apply (t_free_matrix c (n - 1) (8 * (n - 1)) L1 (matrix_blocks b n (8 * n) ++ pre))|].
  - rewrite Pb, Pc. rewrite !app_assoc. apply Permutation_app_tail, Permutation_app_comm.
  - intros ? L2 P. apply t_ret. auto.
Qed.
Lemma t_matrix_inverse n pre : triple pre (matrix_inverse n) (fun b L => length (snd b) = n /\ exists cof, length (snd cof) = n /\ Permutation L (matrix_blocks b n (8 * n) ++ matrix_blocks cof n (8 * n) ++ pre)).
Proof.
  unfold matrix_inverse. eapply t_bind; [apply (t_new_matrix n (8 * n) pre)|]. intros b L [Hb Pb]. eapply t_bind; [apply t_CoFactor|]. intros cof L1 [Hc Pc].
  eapply t_bind; [apply t_balanced, balanced_repeat, balanced_repeat, t_Determinant|]. intros _ L2 ->. apply t_ret. split; [exact Hb|]. exists cof. split; [exact Hc|].
  rewrite Pc, Pb. rewrite !app_assoc. apply Permutation_app_tail, Permutation_app_comm.
Qed.
Lemma two_matrices n b : balanced (d <- new_matrix n b; p <- new_matrix n b; free_matrix d ;; free_matrix p).
Proof.
  eapply t_bind; [apply (t_new_matrix n b [])|]. intros d L [_ Pd]. eapply t_bind; [apply t_new_matrix|]. intros p L1 [_ Pp].
  eapply t_bind; [apply (t_free_matrix d n b L1 (matrix_blocks p n b))|].
  - rewrite Pp, Pd, app_nil_r. apply Permutation_app_comm.
  - intros ? L2 P. eapply t_post; [|apply (t_free_matrix p n b L2 [])]; [intros u L3 Q; apply perm_nil, Q|]. rewrite P, app_nil_r. reflexivity.
Qed.
Lemma total_app f a b : total f (a ++ b) = total f a + total f b.
Proof. induction a as [|x a IH]; [reflexivity|]. cbn. fold (total f (a ++ b)). fold (total f a). lia. Qed.
Lemma total_perm f a b : Permutation a b -> total f a = total f b.
Proof. induction 1; cbn; try lia. unfold total in *. lia. Qed.
Lemma total_rows f ids b : total f (rows_of ids b) = length ids * f (Bytes b).
Proof. induction ids as [|i ids IH]; [reflexivity|]. cbn [rows_of map total fold_right snd length]. change (fold_right _ 0 _) with (total f (rows_of ids b)). rewrite IH. cbn. lia. Qed.
Lemma pull (W Y Z : list block) a : Permutation Y (a :: Z) -> Permutation (W ++ Y) (a :: W ++ Z).
Proof. intros ->. symmetry. apply Permutation_middle. Qed.
Lemma to_front (X Y : list block) a : Permutation (X ++ Y ++ [a]) (a :: X ++ Y).
Proof. rewrite app_assoc. symmetry. apply Permutation_cons_append. Qed.
Lemma t_displacements N n : triple [] (atomic_displacements N n) (fun r L => exists L', Permutation L ((r, Reference) :: L') /\ total size L' = 16 * N + 16 * n * n + 8 * n /\ total is_reference L' = 0).
Proof.
  unfold atomic_displacements.
  eapply t_bind; [apply t_acquire|]. intros t L0 ->. eapply t_bind; [apply t_acquire|]. intros p L0 ->. eapply t_bind; [apply t_acquire|]. intros c L0 ->. eapply t_bind; [apply t_acquire|]. intros r L0 ->.
  eapply t_bind; [apply t_acquire|]. intros d L0 ->.
  eapply t_bind; [apply (t_new_matrix n (8 * n))|]. intros cc L1 [Hcc P1].
  eapply t_bind; [apply t_matrix_inverse|]. intros ci L2 [Hci (cof & Hcof & P2)].
  eapply t_bind; [apply (t_new_matrix n 8)|]. intros df L3 [_ P3].
  eapply t_bind; [apply t_balanced, balanced_repeat, (two_matrices n (8 * 1))|]. intros _ L4 ->.
  eapply t_bind; [apply (t_free_matrix df n 8 L3 L2 P3)|]. intros ? L4 P4.
  eapply t_bind; [apply (t_free_matrix ci n (8 * n) L4 (matrix_blocks cof n (8 * n) ++ L1)); rewrite P4; exact P2|]. intros ? L5 P5.
  eapply t_bind; [apply (t_release L5 (fst cc) (Bytes (8 * n)) (matrix_blocks cof n (8 * n) ++ rows_of (snd cc) (8 * n) ++ [(d, Bytes (16 * N)); (r, Reference); (c, Reference); (p, Reference); (t, Reference)]))|].
  { rewrite P5, P1. symmetry. apply Permutation_middle. }
  intros _ L6 ->. set (X := matrix_blocks cof n (8 * n) ++ rows_of (snd cc) (8 * n)).
  eapply t_bind; [apply (t_release _ t Reference (X ++ [(d, Bytes (16 * N)); (r, Reference); (c, Reference); (p, Reference)]))|].
  { rewrite app_assoc. fold X. exact (to_front X [(d, Bytes (16 * N)); (r, Reference); (c, Reference); (p, Reference)] (t, Reference)). }
  intros _ L7 ->. eapply t_bind; [apply (t_release _ p Reference (X ++ [(d, Bytes (16 * N)); (r, Reference); (c, Reference)]))|].
  { exact (to_front X [(d, Bytes (16 * N)); (r, Reference); (c, Reference)] (p, Reference)). }
  intros _ L8 ->. eapply t_bind; [apply (t_release _ c Reference (X ++ [(d, Bytes (16 * N)); (r, Reference)]))|].
  { exact (to_front X [(d, Bytes (16 * N)); (r, Reference)] (c, Reference)). }
  intros _ L9 ->. apply t_ret. exists (X ++ [(d, Bytes (16 * N))]). split; [|split].
  - exact (to_front X [(d, Bytes (16 * N))] (r, Reference)).
  - unfold X, matrix_blocks. rewrite !total_app. cbn [total fold_right snd size]. fold (total size (rows_of (snd cof) (8 * n))). rewrite !total_rows, Hcc, Hcof. cbn [size]. nia.
  - unfold X, matrix_blocks. rewrite !total_app. cbn [total fold_right snd is_reference]. fold (total is_reference (rows_of (snd cof) (8 * n))). rewrite !total_rows, Hcc, Hcof. cbn [is_reference]. nia.
Qed.
Definition result_and (b p : nat) (r : nat) (L : list block) : Prop := exists L', Permutation L ((r, Reference) :: L') /\ total size L' = b /\ total is_reference L' = p.
Lemma run_totals m b p : triple [] m (result_and b p) -> forall h, wf h -> exists r h', m h = Some (r, h') /\ wf h' /\ bytes h' = bytes h + b /\ references h' = references h + p + 1 /\
  exists h'', release r h' = Some (tt, h'') /\ wf h'' /\ bytes h'' = bytes h + b /\ references h'' = references h + p.
Proof.
  intros T h W. destruct (T h (live h) W (Permutation_refl _)) as (r & h' & L & E & W' & P & L' & P' & Eb & Ep). exists r, h'. split; [exact E|]. split; [exact W'|].
  assert (P2 : Permutation (live h') ((r, Reference) :: (L' ++ live h))) by (rewrite P, P'; reflexivity).
  unfold bytes, references. rewrite !(total_perm _ _ _ P2). cbn [total fold_right snd size is_reference]. change (fold_right _ 0 (L' ++ live h)) with (total size (L' ++ live h)) at 1.
  change (fold_right _ 0 (L' ++ live h)) with (total is_reference (L' ++ live h)). rewrite !total_app, Eb, Ep. split; [lia|]. split; [lia|].
  destruct (t_release [(r, Reference)] r Reference [] (Permutation_refl _) h' (L' ++ live h) W' P2) as ([] & h'' & L2 & E2 & W2 & P3 & ->).
  exists h''. split; [exact E2|]. split; [exact W2|]. cbn in P3. rewrite !(total_perm _ _ _ P3), !total_app. lia.
Qed.
Lemma run_calls m b p : triple [] m (result_and b p) -> forall k h, wf h -> exists h', calls k m h = Some (tt, h') /\ wf h' /\ bytes h' = bytes h + k * b /\ references h' = references h + k * p.
Proof.
  intros T. induction k as [|k IH]; intros h W; [exists h; repeat split; try apply W; lia|]. cbn [calls]. unfold bind.
  destruct (run_totals m b p T h W) as (r & h1 & E1 & _ & _ & _ & h2 & E2 & W2 & B2 & R2). rewrite E1, E2.
  destruct (IH h2 W2) as (h3 & E3 & W3 & B3 & R3). exists h3. rewrite E3. split; [reflexivity|]. split; [exact W3|]. lia.
Qed.
Definition work_arrays (N M : nat) (small : nat -> bool) : nat := if leaves_early small 1 M then 16 * N + 8 * M else 0.
Lemma t_GetCoefficients N M small pre : triple pre (GetCoefficients N M small) (fun _ L => exists L', Permutation L (L' ++ pre) /\ total size L' = work_arrays N M small /\ total is_reference L' = 0).
Proof.
  unfold GetCoefficients, work_arrays. eapply t_bind; [apply t_acquire|]. intros a L ->. eapply t_bind; [apply t_acquire|]. intros b L ->. eapply t_bind; [apply t_acquire|]. intros c L ->.
  destruct (leaves_early small 1 M).
  - apply t_ret. exists [(c, Bytes (8 * M)); (b, Bytes (8 * N)); (a, Bytes (8 * N))]. split; [reflexivity|]. cbn. lia.
  - eapply t_bind; [apply (t_release _ a (Bytes (8 * N)) ((c, Bytes (8 * M)) :: (b, Bytes (8 * N)) :: pre))|].
    { symmetry. etransitivity; [apply perm_swap|]. constructor. apply perm_swap. }
    intros _ L ->. eapply t_bind; [apply (t_release _ b (Bytes (8 * N)) ((c, Bytes (8 * M)) :: pre)); apply perm_swap|].
    intros _ L ->. eapply t_post; [|apply (t_release _ c (Bytes (8 * M)) pre); reflexivity]. intros u L ->. exists []. split; [reflexivity|split; reflexivity].
Qed.
Lemma t_mem N M sr si : triple [] (MaximumEntropyMethod N M sr si) (result_and (8 * N + work_arrays N M sr + work_arrays N M si) 0).
Proof.
  unfold MaximumEntropyMethod.
  eapply t_bind; [apply t_acquire|]. intros v L ->. eapply t_bind; [apply t_acquire|]. intros f L ->. eapply t_bind; [apply t_acquire|]. intros r L ->.
  eapply t_bind; [apply t_acquire|]. intros cr L ->. eapply t_bind; [apply t_acquire|]. intros ci L ->. eapply t_bind; [apply t_acquire|]. intros vr L ->. eapply t_bind; [apply t_acquire|]. intros vi L ->.
  eapply t_bind; [apply t_GetCoefficients|]. intros ? L (A & PA & SA & RA). eapply t_bind; [apply t_GetCoefficients|]. intros ? L1 (B & PB & SB & RB).
  set (W := B ++ A). assert (P : Permutation L1 (W ++ [(vi, Bytes (8 * N)); (vr, Bytes (8 * N)); (ci, Bytes (8 * (M + 1))); (cr, Bytes (8 * (M + 1))); (r, Reference); (f, Reference); (v, Reference)])).
  { unfold W. rewrite PB, PA, <- app_assoc. reflexivity. }
  eapply t_bind; [apply (t_release _ v Reference (W ++ [(vi, Bytes (8 * N)); (vr, Bytes (8 * N)); (ci, Bytes (8 * (M + 1))); (cr, Bytes (8 * (M + 1))); (r, Reference); (f, Reference)]))|].
  { rewrite P. exact (to_front W [(vi, Bytes (8 * N)); (vr, Bytes (8 * N)); (ci, Bytes (8 * (M + 1))); (cr, Bytes (8 * (M + 1))); (r, Reference); (f, Reference)] (v, Reference)). }
  intros _ L2 ->. eapply t_bind; [apply (t_release _ f Reference (W ++ [(vi, Bytes (8 * N)); (vr, Bytes (8 * N)); (ci, Bytes (8 * (M + 1))); (cr, Bytes (8 * (M + 1))); (r, Reference)]))|].
  { exact (to_front W [(vi, Bytes (8 * N)); (vr, Bytes (8 * N)); (ci, Bytes (8 * (M + 1))); (cr, Bytes (8 * (M + 1))); (r, Reference)] (f, Reference)). }
  intros _ L3 ->. eapply t_bind; [apply (t_release _ vr (Bytes (8 * N)) (W ++ [(vi, Bytes (8 * N)); (ci, Bytes (8 * (M + 1))); (cr, Bytes (8 * (M + 1))); (r, Reference)]))|].
  { apply pull, perm_swap. }
  intros _ L4 ->. eapply t_bind; [apply (t_release _ cr (Bytes (8 * (M + 1))) (W ++ [(vi, Bytes (8 * N)); (ci, Bytes (8 * (M + 1))); (r, Reference)]))|].
  { apply pull. etransitivity; [constructor; apply perm_swap|apply perm_swap]. }
  intros _ L5 ->. eapply t_bind; [apply (t_release _ ci (Bytes (8 * (M + 1))) (W ++ [(vi, Bytes (8 * N)); (r, Reference)]))|].
  { apply pull, perm_swap. }
  intros _ L6 ->. apply t_ret. exists (W ++ [(vi, Bytes (8 * N))]). split; [exact (to_front W [(vi, Bytes (8 * N))] (r, Reference))|].
  unfold W. rewrite !total_app, SA, SB, RA, RB. cbn. lia.
Qed.
Lemma t_correlation : triple [] (r <- correlation_par true; ret (match r with Some x => x | None => 0 end)) (result_and 0 2).
Proof.
  apply (t_bind _ _ _ _ _ (fun o L => exists r f v, o = Some r /\ L = [(r, Reference); (f, Reference); (v, Reference)])).
  - unfold correlation_par. eapply t_bind; [apply t_acquire|]. intros v L ->. eapply t_bind; [apply t_acquire|]. intros f L ->. eapply t_bind; [apply t_acquire|]. intros r L ->. apply t_ret. exists r, f, v. auto.
  - intros o L (r & f & v & -> & ->). apply t_ret. exists [(f, Reference); (v, Reference)]. split; [reflexivity|split; reflexivity].
Qed.

(** ---------- C101 ---------- *)
(** what holds: no call of the three extensions frees anything twice or anything it does not own, and the result it returns is a live reference, for every
    size of the data and every outcome of the tests on the data *)
Theorem C101_no_invalid_free_partial : forall h, wf h ->
  (forall N n, exists r h', atomic_displacements N n h = Some (r, h') /\ wf h' /\ In (r, Reference) (live h')) /\
  (forall N M small_r small_i, exists r h', MaximumEntropyMethod N M small_r small_i h = Some (r, h') /\ wf h' /\ In (r, Reference) (live h')) /\
  (exists r h', correlation_par true h = Some (Some r, h') /\ wf h' /\ In (r, Reference) (live h')).
Proof.
  assert (G : forall m b p, triple [] m (result_and b p) -> forall h, wf h -> exists r h', m h = Some (r, h') /\ wf h' /\ In (r, Reference) (live h')).
  { intros m b p T h W. destruct (T h (live h) W (Permutation_refl _)) as (r & h' & L & E & W' & P & L' & P' & _). exists r, h'. split; [exact E|]. split; [exact W'|].
    apply (Permutation_in _ (Permutation_sym P)). apply in_or_app. left. apply (Permutation_in _ (Permutation_sym P')). left. reflexivity. }
  intros h W. split; [|split].
  - intros N n. exact (G _ _ _ (t_displacements N n) h W).
  - intros N M sr si. exact (G _ _ _ (t_mem N M sr si) h W).
  - destruct (G _ _ _ t_correlation h W) as (r & h' & E & W' & I). cbn in E. unfold correlation_par, bind, new_reference, acquire in *. cbn in *. injection E as <- <-.
    eexists _, _. split; [reflexivity|]. split; assumption.
Qed.
Print Assumptions C101_no_invalid_free_partial.
(** the recursive determinant, for matrices of any size, and the work of one time step give back all the memory they take *)
Theorem C101_determinant_partial : forall n h, wf h -> exists h', Determinant n h = Some (tt, h') /\ wf h' /\ bytes h' = bytes h /\ references h' = references h.
Proof.
  intros n h W. destruct (t_Determinant n h (live h) W (Permutation_refl _)) as ([] & h' & L & E & W' & P & ->). exists h'. split; [exact E|]. split; [exact W'|].
  unfold bytes, references. rewrite !(total_perm _ _ _ P). auto.
Qed.
Print Assumptions C101_determinant_partial.
(** refuted: every call for the displacements of one atom over N steps keeps 16 N + 16 n^2 + 8 n bytes for ever, also when the result is discarded *)
Theorem C101_displacements_refuted : forall k N n h, wf h -> exists h', calls k (atomic_displacements N n) h = Some (tt, h') /\
  bytes h' = bytes h + k * (16 * N + 16 * n * n + 8 * n) /\ references h' = references h.
Proof.
  intros k N n h W. destruct (run_calls _ _ _ (t_displacements N n) k h W) as (h' & E & _ & B & R). exists h'. split; [exact E|]. split; [exact B|]. rewrite R. lia.
Qed.
Print Assumptions C101_displacements_refuted.
(** refuted: every maximum entropy spectrum keeps the 8 N bytes of the imaginary parts, and 16 N + 8 M more for each of the two parts whose recursion was cut short *)
Theorem C101_maximum_entropy_refuted : forall k N M small_r small_i h, wf h ->
  exists h', calls k (MaximumEntropyMethod N M small_r small_i) h = Some (tt, h') /\ references h' = references h /\
  bytes h' = bytes h + k * (8 * N + (if leaves_early small_r 1 M then 16 * N + 8 * M else 0) + (if leaves_early small_i 1 M then 16 * N + 8 * M else 0)).
Proof.
  intros k N M sr si h W. destruct (run_calls _ _ _ (t_mem N M sr si) k h W) as (h' & E & _ & B & R). exists h'. split; [exact E|]. split; [rewrite R; lia|]. exact B.
Qed.
Print Assumptions C101_maximum_entropy_refuted.
(** ... and the recursion is cut short at once for the imaginary parts of real velocities *)
Theorem C101_real_velocities_refuted : forall (data : CMem.arr R) N M msd, 2 <= N -> 1 <= M -> (forall j, 1 <= j <= N -> CMem.rd data j = Some 0%R) ->
  exists wk1 wk2, MemModel.mem_fill data N = Some (wk1, wk2) /\
  MemModel.mem_iter N M 1 (MemModel.Go (MemModel.MkM wk1 wk2 (CMem.malloc M) (CMem.malloc (M + 1)) msd)) = Some (MemModel.Ret 0%R (CMem.malloc (M + 1))).
Proof.
  intros data N M msd HN HM Hd. destruct (MemProofs.mem_fill_ok (fun _ => 0%R) data N HN Hd) as ([wk1 wk2] & E & _ & _ & I). cbn [fst snd] in I. exists wk1, wk2. split; [exact E|].
  unfold MemModel.mem_iter. cbn [MemModel.m_wk1 MemModel.m_wk2 MemModel.m_coef]. rewrite (MemProofs.mem_sums_ok N HN 1 wk1 wk2 (MemSpec.MkB (fun _ => 0%R) (fun _ => 0%R) (fun _ => 0%R) 0%R false)) by (intros j Hj; apply I; lia).
  cbn [CMem.bind snd]. assert (D : MemSpec.burg_den N 1 (MemSpec.MkB (fun _ => 0%R) (fun _ => 0%R) (fun _ => 0%R) 0%R false) = 0%R).
  { unfold MemSpec.burg_den. cbn [MemSpec.b_fwd MemSpec.b_bwd]. clear. generalize 1 at 1. induction (N - 1) as [|m IH]; intros a; [reflexivity|]. cbn [MemSpec.sum_from]. rewrite IH. lra. }
  rewrite D, Rabs_R0. destruct (Rlt_dec 0 (1 / 1000000)) as [_|X]; [reflexivity|]. exfalso. apply X. lra.
Qed.
Print Assumptions C101_real_velocities_refuted.
(** refuted: every correlation spectrum keeps its two input arrays alive for ever; a call refused for its method keeps the output array too *)
Theorem C101_correlation_refuted : forall k h, wf h ->
  (exists h', calls k (r <- correlation_par true; ret (match r with Some x => x | None => 0 end)) h = Some (tt, h') /\ bytes h' = bytes h /\ references h' = references h + 2 * k) /\
  (exists h', correlation_par false h = Some (None, h') /\ references h' = references h + 3).
Proof.
  intros k h W. split.
  - destruct (run_calls _ _ _ t_correlation k h W) as (h' & E & _ & B & R). exists h'. split; [exact E|]. lia.
  - eexists. split; [reflexivity|]. unfold references, total. cbn [live fold_right snd is_reference]. lia.
Qed.
Print Assumptions C101_correlation_refuted.
Example C101_nonvacuous : exists h, wf h /\ live h <> [] /\
  calls 2 (atomic_displacements 1000 3) h = Some (tt, snd (match calls 2 (atomic_displacements 1000 3) h with Some x => x | None => (tt, h) end)) /\
  leaves_early (fun k => k =? 1) 1 5 = true /\ leaves_early (fun _ => false) 1 5 = false.
Proof.
  exists (MkHeap 1 [(0, Bytes 64)]). split; [split; [repeat constructor; intros []|intros b [<-|[]]; cbn; lia]|]. split; [discriminate|]. split; [|split; reflexivity].
  destruct (C101_displacements_refuted 2 1000 3 (MkHeap 1 [(0, Bytes 64)])) as (h' & E & _); [split; [repeat constructor; intros []|intros b [<-|[]]; cbn; lia]|]. rewrite E. reflexivity.
Qed.
