(** What registration and dispatch of exception handlers must do: a map from types to handlers, without locks. *)
From Verif Require Import Base.Prelude Exc.Model.
Local Open Scope N_scope.

(** The handler for a type after requests, the last one first. *)
Definition table := N -> option N.
Definition with_entry (m : table) (t : N) (h : option N) : table := fun x => if N.eq_dec x t then h else m x.

(** [big m acts m' log]: code that does [acts] with table [m] ends with table [m'], and [log] is seen.  [active]: the exceptions that are being handled.
    Registration and removal are for types that exist and are not being handled. *)
Inductive big (body : N -> list act) (num : N) : list N -> table -> list act -> table -> list event -> Prop :=
| big_nil : forall active m, big body num active m [] m []
| big_no_handler : forall active m t acts m' log,
    big body num active m acts m' log -> big body num active m (Reg t None :: acts) m' (Answer (Some InvalidParameter) :: log)
| big_no_type : forall active m t h acts m' log, num <= t ->
    big body num active m acts m' log -> big body num active m (Reg t (Some h) :: acts) m' (Answer (Some InvalidParameter) :: log)
| big_no_type_removal : forall active m t acts m' log, num <= t ->
    big body num active m acts m' log -> big body num active m (Unreg t :: acts) m' (Answer (Some InvalidParameter) :: log)
| big_register : forall active m t h acts m' log, t < num -> ~ In t active -> m t = None ->
    big body num active (with_entry m t (Some h)) acts m' log -> big body num active m (Reg t (Some h) :: acts) m' (Answer None :: log)
| big_taken : forall active m t h h' acts m' log, t < num -> ~ In t active -> m t = Some h' ->
    big body num active m acts m' log -> big body num active m (Reg t (Some h) :: acts) m' (Answer (Some AlreadyStarted) :: log)
| big_unregister : forall active m t h acts m' log, t < num -> ~ In t active -> m t = Some h ->
    big body num active (with_entry m t None) acts m' log -> big body num active m (Unreg t :: acts) m' (Answer None :: log)
| big_missing : forall active m t acts m' log, t < num -> ~ In t active -> m t = None ->
    big body num active m acts m' log -> big body num active m (Unreg t :: acts) m' (Answer (Some InvalidParameter) :: log)
| big_exception : forall active m t h acts m1 m' log1 log, t < num -> m t = Some h ->
    big body num (t :: active) m (body h) m1 log1 -> big body num active m1 acts m' log ->
    big body num active m (Raise t :: acts) m' (Called t h :: log1 ++ log).

(** No exception comes while a registration is under way. *)
Definition undisturbed (l : list act) : Prop := forall t h k, ~ In (RegHit t h k) l.
