(** C39: a number of last steps that is not positive.  l[-n:] with n = 0 is the whole list, and with n = -m it drops the first m steps; so asking for the last 0 steps
    gives every step of the window, and asking for a negative number gives the window without its first steps, for the three readers alike. *)
From Verif Require Import ParsersModel ParsersProps.
From Coq Require Import Lia.

Section Statements.
Context {L T : Type} (has : string -> L -> bool) (words : L -> list T) (num : T -> option R) (int : T -> option nat)
        (nions : L -> option nat) (potim energy after_eq : L -> option R) (kind : L -> label_kind) (argsort : list R -> list nat) (inv : mat -> mat).

Lemma cut_nonpositive {A B} m (t : list A) (d : list B) : d <> [] -> cut_last (Some (- Z.of_nat m)%Z) t d = Ok (skipn m t, skipn m d).
Proof.
  intros Hd. unfold cut_last. destruct d as [|x d]; [contradiction|]. unfold neg_slice. destruct (Z.ltb_spec 0 (- Z.of_nat m)) as [H|_]; [lia|].
  rewrite Z.opp_involutive, Nat2Z.id. reflexivity.
Qed.
Theorem C39_lammps_nonpositive_refuted : forall file cell dt a e limit template r m,
  read_lammps has words num int kind argsort inv file cell dt None a e limit false template = Ok r -> c_data (lr_content r) <> [] ->
  exists r', read_lammps has words num int kind argsort inv file cell dt (Some (- Z.of_nat m)%Z) a e limit false template = Ok r' /\
  c_data (lr_content r') = skipn m (c_data (lr_content r)) /\ c_time (lr_content r') = skipn m (c_time (lr_content r)) /\ lr_supercell r' = lr_supercell r.
Proof.
  intros file cell dt a e limit template r m. unfold read_lammps. match goal with |- context [lammps_loop ?a ?b ?c ?d ?e ?f ?g ?h ?i ?j ?k ?l ?m ?n ?o] => destruct (lammps_loop a b c d e f g h i j k l m n o) as [st| | |] end; cbn [bind]; try discriminate.
  intros E Hd. cbn [cut_last bind] in E. destruct (l_hdr st) as [h|]; [|discriminate]. destruct (l_label st) as [lab|]; [|discriminate].
  assert (ND : l_data st <> []). { destruct (kind lab); try discriminate; injection E as <-; exact Hd. }
  rewrite (cut_nonpositive m _ _ ND). cbn [bind]. destruct (kind lab); try discriminate; injection E as <-; eexists; (split; [reflexivity|]); repeat split.
Qed.
Theorem C39_xdatcar_nonpositive_refuted : forall file dt a e limit template c s m,
  read_xdatcar has words num int after_eq argsort file dt None a e limit false template = Ok (c, s) -> c_data c <> [] ->
  exists c', read_xdatcar has words num int after_eq argsort file dt (Some (- Z.of_nat m)%Z) a e limit false template = Ok (c', s) /\
  c_data c' = skipn m (c_data c) /\ c_time c' = skipn m (c_time c).
Proof.
  intros file dt a e limit template c s m. unfold read_xdatcar.
  destruct file as [|l0 [|l1 [|l2 [|l3 [|l4 [|l5 [|l6 pos]]]]]]]; try discriminate.
  repeat match goal with |- bind (need ?x) _ = _ -> _ => destruct x; cbn [need bind]; try discriminate end.
  match goal with |- bind ?x _ = _ -> _ => destruct x as [st| | |] end; cbn [bind]; try discriminate.
  intros E Hd. cbn [cut_last bind] in E. injection E as <- <-. rewrite (cut_nonpositive m _ _ Hd). cbn [bind]. eexists. split; [reflexivity|]. split; reflexivity.
Qed.
Theorem C39_outcar_nonpositive_refuted : forall file a e limit template c es m,
  read_outcar has words num argsort nions potim energy file None a e limit template = Ok (c, es) -> c_data c <> [] ->
  exists c', read_outcar has words num argsort nions potim energy file (Some (- Z.of_nat m)%Z) a e limit template = Ok (c', skipn m es) /\ c_data c' = skipn m (c_data c).
Proof.
  intros file a e limit template c es m. unfold read_outcar.
  repeat match goal with |- bind (need ?x) _ = _ -> _ => destruct x; cbn [need bind]; try discriminate end.
  match goal with |- bind ?x _ = _ -> _ => destruct x as [st| | |] end; cbn [bind]; try discriminate.
  intros E Hd. cbn [cut_last bind] in E. injection E as <- <-. rewrite (cut_nonpositive m _ _ Hd). cbn [bind]. eexists. split; reflexivity.
Qed.
End Statements.
Print Assumptions C39_lammps_nonpositive_refuted.
Print Assumptions C39_xdatcar_nonpositive_refuted.
Print Assumptions C39_outcar_nonpositive_refuted.
(** reading the concrete XDATCAR of ParsersProps with last_steps = 0: all of it *)
Example C39_nonpositive_witness : read_xdatcar w_has w_words w_num w_int w_eq w_argsort w_xdatcar 1 (Some 0%Z) 2 None 100 false None = Ok (MkContent [1 * 1; 2 * 1] [[V3 2 0 1]], mdiag 5 5 5).
Proof. reflexivity. Qed.
