(** Vocabulary for the statements about Stall and ExitBootServices. *)
From Verif Require Import Base.Prelude Misc.Model.
Local Open Scope N_scope.

(** The total of a list of tick counts. *)
Definition total (l : list N) : N := fold_right N.add 0 l.

(** Before the first ExitBootServices call: boot services are up and memory can be allocated. *)
Definition booting (s : xstate) : Prop :=
  x_called s = false /\ x_locked s = false /\ x_signals s = [] /\ x_ints s = true /\ x_services s = true /\
  x_runtime s = false.

(** Notification functions that do not themselves call ExitBootServices: whatever else they do, they leave
    its own state alone. *)
Definition quiet (e : xenv) : Prop := forall g s,
  x_called (e_notify e g s) = x_called s /\ x_locked (e_notify e g s) = x_locked s /\
  x_signals (e_notify e g s) = x_signals s /\ x_ints (e_notify e g s) = x_ints s /\
  x_services (e_notify e g s) = x_services s /\ x_runtime (e_notify e g s) = x_runtime s.

(** The caller's key is the key of the current memory map. *)
Definition fresh_key (e : xenv) : Prop := e_map e = Ok (e_key e).

Definition fresh_keyb (e : xenv) : bool := match e_map e with Ok k => e_key e =? k | _ => false end.

(** The groups that the calls should signal: the two "before" groups once, then one group per call. *)
Definition expected_signals (es : list xenv) : list group :=
  match es with
  | [] => []
  | _ => [PRE_EBS; BEFORE_EBS] ++ map (fun e => if fresh_keyb e then EBS else EBS_FAILED) es
  end.

Definition count_group (g : group) (l : list group) : nat :=
  length (filter (fun x => match x, g with PRE_EBS, PRE_EBS | BEFORE_EBS, BEFORE_EBS | EBS, EBS
                                         | EBS_FAILED, EBS_FAILED => true | _, _ => false end) l).
