(** C27: the Parameters object. *)
From Verif Require Import ParametersModel ParametersSpec ParametersProofs.
Open Scope string_scope.

(** Every property except save_renormalized_frequencies: a write is read back, and no write changes
    another property; for every state of the object and every value. *)
Theorem C27_set_get_partial :
  forall (V : Type) (n : string) (v : V) (d : dict V), In n names -> n <> "save_renormalized_frequencies" ->
  read n (assign n v d) = Some v.
Proof. intros V. exact set_get. Qed.
Print Assumptions C27_set_get_partial.
Theorem C27_frame :
  forall (V : Type) (n m : string) (v : V) (d : dict V), In n names -> In m names -> n <> m -> read m (assign n v d) = read m d.
Proof. intros V. exact set_frame. Qed.
Print Assumptions C27_frame.
(** Hence after any history of assignments and dictionary loads, the last value given is read. *)
Theorem C27_history_partial :
  forall (V : Type) (l : list step) (d : dict V) (n : string), In n names -> n <> "save_renormalized_frequencies" ->
  Forall known l -> read n (run l d) = last_value n l (read n d).
Proof. intros V. exact run_last. Qed.
Print Assumptions C27_history_partial.
(** Full statement false: no history of assignments changes save_renormalized_frequencies. *)
Theorem C27_save_flag_refuted :
  forall (V : Type) (l : list step) (d : dict V),
  Forall (fun s => match s with Assign m _ => In m names | Load data => lookup "_save_renormalized_frequencies" data = None end) l ->
  read "save_renormalized_frequencies" (run l d) = read "save_renormalized_frequencies" d.
Proof. intros V. exact run_broken. Qed.
Print Assumptions C27_save_flag_refuted.
(** A fresh object answers every property with the constructor's value of that name (the symprec
    argument is spelled symmprec). *)
Theorem C27_defaults :
  forall (V : Type) (args : string -> V) (n : string), In n names ->
  read n (init args) = Some (args (if String.eqb n "symprec" then "symmprec" else n)).
Proof.
  intros V args n H. vm_compute in H. repeat (destruct H as [<-|H]; [reflexivity|]). destruct H.
Qed.
Print Assumptions C27_defaults.
(** get_data_from_dict: exactly the given keys that exist are replaced; no attribute is added. *)
Theorem C27_load :
  forall (V : Type) (data d : dict V) (k : string),
  lookup k (get_data_from_dict data d) = match lookup k d with None => None | Some v => match lookup k data with Some w => Some w | None => Some v end end.
Proof. intros V data d k. apply load_lookup. Qed.
Print Assumptions C27_load.
(** scripts/dynaphopy:302 assigns "degenerate", which is no property: the option cannot be observed
    through any property. *)
Theorem C27_degenerate_no_effect :
  forall (V : Type) (v : V) (d : dict V) (m : string), In m names -> read m (assign "degenerate" v d) = read m d.
Proof.
  intros V v d m H. apply set_unknown; [|exact H|]; vm_compute; intuition discriminate.
Qed.
Print Assumptions C27_degenerate_no_effect.
(** A second Parameters(...) ignores its arguments. *)
Theorem C27_second_instance_ignores_arguments :
  forall (V : Type) (args args' : string -> V), fst (construct args' (snd (construct args None))) = fst (construct args None).
Proof. intros V. exact second_instance. Qed.
Print Assumptions C27_second_instance_ignores_arguments.
Example C27_nonvacuous : In "silent" names /\ List.length names = 23 /\ read "silent" (assign "silent" 7 (init (fun _ => 0))) = Some 7.
Proof. vm_compute. tauto. Qed.
