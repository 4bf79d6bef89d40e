(** What the event services promise, in terms of observable state: for each live event its fields, and the pending
    notifications in delivery order. *)
From Verif Require Import Base.Prelude Event.Model.
Local Open Scope N_scope.

(** Reachable states: any history of event-service calls, timer ticks and dispatches, in either build profile. *)
Definition ev_reachable (s : evsys) : Prop := exists dbg miss ops, ev_run (sys_new dbg miss) ops = s.

(** The live event with a given identifier. *)
Definition live (s : evsys) (id : N) : option event := em_get (d_events (s_db s)) id.

(** A pending notification as its receiver sees it. *)
Definition notice : Type := (N * N * option N * option N)%type. (* event, TPL, function, context *)
Definition notice_of (n : notif) : notice := (n_event n, n_tpl n, n_fn n, n_ctx n).
Definition notice_event (n : notice) : N := fst (fst (fst n)).
Definition notice_tpl (n : notice) : N := snd (fst (fst n)).
Definition pending (s : evsys) : list notice := map notice_of (d_pending (s_db s)).
Definition notice_for (e : event) : notice := (e_id e, e_tpl e, e_fn e, e_ctx e).

(** How many notifications are pending for an event. *)
Definition pending_count (s : evsys) (id : N) : nat :=
  length (filter (fun n => notice_event n =? id) (pending s)).

(** The delivery discipline: behind everything of the same or higher TPL, ahead of everything of lower TPL. *)
Definition enqueue (p : list notice) (x : notice) : list notice :=
  filter (fun y => notice_tpl x <=? notice_tpl y) p ++ x :: filter (fun y => notice_tpl y <? notice_tpl x) p.

(** Events that must be queued when signalled. *)
Definition signal_type (e : event) : bool := N.testbit (e_type e) 9.
Definition timer_type (e : event) : bool := N.testbit (e_type e) 31.

(** Members of a group, newest first. *)
Definition members (s : evsys) (g : N) : list event :=
  filter (fun e => match e_group e with Some h => h =? g | None => false end) (rev (d_events (s_db s))).

(** Signalling a list of events: each becomes signalled, and each notify-signal one is queued in turn. *)
Definition signalled (e : event) : event :=
  MkE (e_id e) (e_type e) (e_group e) true (e_tpl e) (e_fn e) (e_ctx e) (e_trigger e) (e_period e).
Definition queued (p : list notice) (es : list event) : list notice :=
  fold_left (fun p e => if signal_type e then enqueue p (notice_for e) else p) es p.

(** A timer that is due at a time. *)
Definition due (now : N) (e : event) : Prop :=
  timer_type e = true /\ exists t, e_trigger e = Some t /\ t <= now.

(** Whether a call delivered a notification of an event. *)
Definition delivers (out : ev_out) (id : N) : bool :=
  match out with RNotify (Some n) => n_event n =? id | _ => false end.

(** Over a history starting in [s]: how many notifications of [id] were delivered, and how often [id] went from
    not signalled to signalled. *)
Definition is_up (s : evsys) (id : N) : bool :=
  match live s id with Some e => e_signaled e | None => false end.
Fixpoint delivered (s : evsys) (ops : list ev_op) (id : N) : nat :=
  match ops with
  | [] => 0
  | o :: t => ((if delivers (fst (ev_step s o)) id then 1 else 0) + delivered (snd (ev_step s o)) t id)%nat
  end.
Fixpoint raised (s : evsys) (ops : list ev_op) (id : N) : nat :=
  match ops with
  | [] => 0
  | o :: t => ((if negb (is_up s id) && is_up (snd (ev_step s o)) id then 1 else 0) + raised (snd (ev_step s o)) t id)%nat
  end.

(** Calls that arm or cancel the timer of an event. *)
Definition sets_timer (o : ev_op) (id : N) : bool :=
  match o with OSetTimer i _ _ => i =? id | _ => false end.
