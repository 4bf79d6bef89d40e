(** Model of the event database (patina_dxe_core/src/event_db.rs) and of the parts of the event services
    (patina_dxe_core/src/events.rs) that only touch the database. *)
From Verif Require Import Base.Prelude.
Local Open Scope N_scope.

(** r-efi constants used by event_db.rs:28-68, 248, 262, 318. *)
Definition EVT_TIMER : N := 0x80000000.
Definition EVT_RUNTIME : N := 0x40000000.
Definition EVT_NOTIFY_WAIT : N := 0x100.
Definition EVT_NOTIFY_SIGNAL : N := 0x200.
Definition EVT_SIGNAL_EXIT_BOOT_SERVICES : N := 0x201.
Definition EVT_SIGNAL_VIRTUAL_ADDRESS_CHANGE : N := 0x60000202.
Definition TPL_APPLICATION : N := 4.
Definition TPL_CALLBACK : N := 8.
Definition TPL_NOTIFY : N := 16.
Definition TPL_HIGH_LEVEL : N := 31.
(** GUIDs are 128-bit numbers. *)
Definition GROUP_VIRTUAL_ADDRESS_CHANGE : N := 0x13FA7698C83149C787EA8F43FCC25196.
Definition GROUP_EXIT_BOOT_SERVICES : N := 0x27ABF055B1B84C268048748F37BAA2DF.
(** event_db.rs:298 [RT_EVENT]. *)
Definition RT_EVENT : N := 2 ^ 63.
Global Arguments RT_EVENT : simpl never.

(** event_db.rs:70-87 [EventType::try_from]; the enumeration is kept as its [u32] value. *)
Definition event_type_ok (ty : N) : bool :=
  (ty =? EVT_TIMER + EVT_NOTIFY_SIGNAL) || (ty =? EVT_TIMER) || (ty =? EVT_NOTIFY_WAIT) ||
  (ty =? EVT_NOTIFY_SIGNAL) || (ty =? 0) || (ty =? EVT_TIMER + EVT_NOTIFY_WAIT).

(** event_db.rs:89-104. *)
Definition is_notify_signal (ty : N) : bool := negb (N.land ty EVT_NOTIFY_SIGNAL =? 0).
Definition is_notify_wait (ty : N) : bool := negb (N.land ty EVT_NOTIFY_WAIT =? 0).
Definition is_timer (ty : N) : bool := negb (N.land ty EVT_TIMER =? 0).

(** event_db.rs:109-116 [TimerDelay]. *)
Inductive timer_delay := TCancel | TPeriodic | TRelative.

(** event_db.rs:196-211 [Event].  Function and context pointers are numbers. *)
Record event := MkE {
  e_id : N; e_type : N; e_group : option N; e_signaled : bool;
  e_tpl : N; e_fn : option N; e_ctx : option N;
  e_trigger : option N; e_period : option N }.

(** event_db.rs:132-141, 158 [EventNotification] and its tag. *)
Record notif := MkNt { n_event : N; n_tpl : N; n_fn : option N; n_ctx : option N; n_tag : N }.

(** event_db.rs:285-294 [EventDb].
    - [d_events]: the BTreeMap as its entries in ascending key order;
    - [d_pending]: the BTreeSet as its elements in tree order;
    - [d_tags]: [notify_tags] (a [u64]; overflow after 2^64 notifications is not modelled);
    - [d_rt]: the identifiers of the events handed to the runtime module (runtime.rs:97-133);
    - [d_miss]: the element order is not a total order (two notifications for one event compare equal whatever
      their tags), so whether inserting a second notification for an event that already has one is recognised as
      a duplicate depends on the shape of the B-tree.  [d_miss k = true] says that the [k]-th insertion does not
      meet the existing entry; every theorem holds for all values of it. *)
Record evdb := MkDb {
  d_dbg : bool; d_events : list event; d_next : N; d_pending : list notif; d_tags : N;
  d_rt : list N; d_miss : N -> bool }.

Definition db_new (dbg : bool) (miss : N -> bool) : evdb := MkDb dbg [] 1 [] 0 [] miss.

Definition set_events (d : evdb) (es : list event) : evdb :=
  MkDb (d_dbg d) es (d_next d) (d_pending d) (d_tags d) (d_rt d) (d_miss d).
Definition set_pending (d : evdb) (p : list notif) : evdb :=
  MkDb (d_dbg d) (d_events d) (d_next d) p (d_tags d) (d_rt d) (d_miss d).
Definition bump_tag (d : evdb) : evdb :=
  MkDb (d_dbg d) (d_events d) (d_next d) (d_pending d) (d_tags d + 1) (d_rt d) (d_miss d).

(** BTreeMap::get / insert / remove on the ascending list. *)
Definition em_get (es : list event) (id : N) : option event := find (fun e => e_id e =? id) es.
Fixpoint em_insert (es : list event) (x : event) : list event :=
  match es with
  | [] => [x]
  | e :: t => if e_id x <? e_id e then x :: es else if e_id x =? e_id e then x :: t else e :: em_insert t x
  end.
Definition em_remove (es : list event) (id : N) : list event := filter (fun e => negb (e_id e =? id)) es.
(** [get_mut] followed by an update of the value. *)
Definition em_update (es : list event) (id : N) (f : event -> event) : list event :=
  map (fun e => if e_id e =? id then f e else e) es.

Definition with_signaled (b : bool) (e : event) : event :=
  MkE (e_id e) (e_type e) (e_group e) b (e_tpl e) (e_fn e) (e_ctx e) (e_trigger e) (e_period e).
Definition with_timer (trigger period : option N) (e : event) : event :=
  MkE (e_id e) (e_type e) (e_group e) (e_signaled e) (e_tpl e) (e_fn e) (e_ctx e) trigger period.

(** event_db.rs:240-278 [Event::new]. *)
Definition event_new (id ty tpl : N) (fn ctx group : option N) : res efi_error event :=
  let notifiable := negb (N.land ty (N.lor EVT_NOTIFY_SIGNAL EVT_NOTIFY_WAIT) =? 0) in
  if negb (event_type_ok ty) then Err InvalidParameter
  else if notifiable && (match fn with None => true | Some _ => false end) then Err InvalidParameter
  else if notifiable && negb ((TPL_APPLICATION + 1 <=? tpl) && (tpl <=? TPL_HIGH_LEVEL)) then Err InvalidParameter
  else Ok (MkE id ty group false tpl fn ctx None None).

Definition opt_eqb (a b : option N) : bool :=
  match a, b with Some x, Some y => x =? y | None, None => true | _, _ => false end.

(** event_db.rs:304-340 [create_event].  The identifier counter advances even when creation fails.
    runtime.rs:97-126 [add_runtime_event] fails only when there is no notification function. *)
Definition create_event (d : evdb) (ty tpl : N) (fn ctx group : option N) : res efi_error N * evdb :=
  if d_next d =? RT_EVENT then (debug_fail (d_dbg d) (Err OutOfResources), d)
  else
    let runtime := negb (N.land ty EVT_RUNTIME =? 0) || opt_eqb group (Some GROUP_VIRTUAL_ADDRESS_CHANGE) in
    let id := if runtime then d_next d + RT_EVENT else d_next d in
    let d1 := MkDb (d_dbg d) (d_events d) (d_next d + 1) (d_pending d) (d_tags d) (d_rt d) (d_miss d) in
    if runtime then
      match fn with
      | None => (Err InvalidParameter, d1)
      | Some _ => (Ok id, MkDb (d_dbg d1) (d_events d1) (d_next d1) (d_pending d1) (d_tags d1) (d_rt d1 ++ [id]) (d_miss d1))
      end
    else
      match event_new id ty tpl fn ctx group with
      | Ok e => (Ok id, set_events d1 (em_insert (d_events d1) e))
      | Err e => (Err e, d1)
      | Panic => (Panic, d1)
      end.

(** event_db.rs:342-351 [close_event]; runtime.rs:128-133 [remove_runtime_event] always succeeds. *)
Definition close_event (d : evdb) (id : N) : res efi_error unit * evdb :=
  if RT_EVENT <=? id then
    (Ok tt, MkDb (d_dbg d) (d_events d) (d_next d) (d_pending d) (d_tags d)
                 (filter (fun i => negb (i =? id)) (d_rt d)) (d_miss d))
  else match em_get (d_events d) id with
  | None => (Err InvalidParameter, d)
  | Some _ => (Ok tt, set_events d (em_remove (d_events d) id))
  end.

(** event_db.rs:166-181 [TaggedEventNotification::cmp] for different events: higher TPL first, then lower tag.
    BTreeSet::insert: the new element goes to its place in that order, unless an element of the same event is met. *)
Definition notif_before (a b : notif) : bool := (n_tpl b <? n_tpl a) || ((n_tpl a =? n_tpl b) && (n_tag a <? n_tag b)).
Fixpoint insert_ordered (x : notif) (p : list notif) : list notif :=
  match p with
  | [] => [x]
  | y :: t => if notif_before x y then x :: y :: t else y :: insert_ordered x t
  end.
Definition pending_insert (miss : N -> bool) (x : notif) (p : list notif) : list notif :=
  if existsb (fun y => n_event y =? n_event x) p && negb (miss (n_tag x)) then p else insert_ordered x p.

(** event_db.rs:354-366 [queue_notify_event]. *)
Definition queue_notify_event (d : evdb) (e : event) : evdb :=
  if is_notify_signal (e_type e) || is_notify_wait (e_type e) then
    set_pending d (pending_insert (d_miss d) (MkNt (e_id e) (e_tpl e) (e_fn e) (e_ctx e) (d_tags d)) (d_pending d))
  else d.

(** The common body of event_db.rs:382-386 and 393-398: mark one event signalled and queue its notification. *)
Definition signal_one (d : evdb) (e : event) : evdb :=
  let d1 := set_events d (em_update (d_events d) (e_id e) (with_signaled true)) in
  if is_notify_signal (e_type e) then bump_tag (queue_notify_event d1 e) else d1.

(** event_db.rs:391-400 [signal_group]: members in descending identifier order. *)
Definition in_group (g : N) (e : event) : bool := opt_eqb (e_group e) (Some g).
Definition signal_group (d : evdb) (g : N) : evdb :=
  fold_left signal_one (filter (fun e => in_group g e && negb (e_signaled e)) (rev (d_events d))) d.

(** event_db.rs:368-389 [signal_event]. *)
Definition signal_event (d : evdb) (id : N) : res efi_error unit * evdb :=
  match em_get (d_events d) id with
  | None => (Err InvalidParameter, d)
  | Some e =>
    if e_signaled e then (Ok tt, d)
    else match e_group e with
    | Some g => (Ok tt, signal_group d g)
    | None => (Ok tt, signal_one d e)
    end
  end.

(** event_db.rs:402-407 [clear_signal]. *)
Definition clear_signal (d : evdb) (id : N) : res efi_error unit * evdb :=
  match em_get (d_events d) id with
  | None => (Err InvalidParameter, d)
  | Some _ => (Ok tt, set_events d (em_update (d_events d) id (with_signaled false)))
  end.

(** event_db.rs:409-412 [is_signaled]. *)
Definition is_signaled (d : evdb) (id : N) : bool :=
  match em_get (d_events d) id with Some e => e_signaled e | None => false end.

(** event_db.rs:653-660 [read_and_clear_signaled]. *)
Definition read_and_clear_signaled (d : evdb) (id : N) : res efi_error bool * evdb :=
  if is_signaled d id then
    match clear_signal d id with (Ok _, d') => (Ok true, d') | (Err e, d') => (Err e, d') | (Panic, d') => (Panic, d') end
  else (Ok false, d).

(** event_db.rs:414-422 [queue_event_notify]. *)
Definition queue_event_notify (d : evdb) (id : N) : res efi_error unit * evdb :=
  match em_get (d_events d) id with
  | None => (Err InvalidParameter, d)
  | Some e => (Ok tt, bump_tag (queue_notify_event d e))
  end.

(** event_db.rs:424-427 [get_event_type]. *)
Definition get_event_type (d : evdb) (id : N) : res efi_error N :=
  match em_get (d_events d) id with None => Err InvalidParameter | Some e => Ok (e_type e) end.

(** event_db.rs:447-482 [set_timer]. *)
Definition is_some {A} (o : option A) : bool := match o with Some _ => true | None => false end.
Definition db_set_timer (d : evdb) (id : N) (k : timer_delay) (trigger period : option N) : res efi_error unit * evdb :=
  match em_get (d_events d) id with
  | None => (Err InvalidParameter, d)
  | Some e =>
    if negb (is_timer (e_type e)) then (Err InvalidParameter, d)
    else if (match k with
             | TCancel => is_some trigger || is_some period
             | TPeriodic => negb (is_some trigger) || negb (is_some period)
             | TRelative => negb (is_some trigger) || is_some period
             end) then (Err InvalidParameter, d)
    else (Ok tt, set_events d (em_update (d_events d) id (with_timer trigger period)))
  end.

(** event_db.rs:490-512: the body of the timer loop for one identifier. *)
Definition tick_one (now : N) (r : res efi_error evdb) (id : N) : res efi_error evdb :=
  let* d := r in
  match em_get (d_events d) id with
  | None => debug_fail (d_dbg d) (Ok d)
  | Some e =>
    match e_trigger e with
    | Some t =>
      if is_timer (e_type e) && (t <=? now) then
        let* trigger := match e_period e with
                        | Some p => let* x := uadd (d_dbg d) now p in Ok (Some x)
                        | None => Ok None
                        end in
        let d1 := set_events d (em_update (d_events d) id (with_timer trigger (e_period e))) in
        Ok (snd (signal_event d1 id))
      else Ok d
    | None => Ok d
    end
  end.

(** event_db.rs:484-513 [timer_tick] (the debugger poll is not modelled). *)
Definition db_timer_tick (d : evdb) (now : N) : res efi_error evdb :=
  fold_left (tick_one now) (rev (map e_id (d_events d))) (Ok d).

(** event_db.rs:515-536 [consume_next_event_notify]. *)
Fixpoint drop_closed (es : list event) (p : list notif) : list notif :=
  match p with
  | [] => []
  | n :: t => match em_get es (n_event n) with None => drop_closed es t | Some _ => p end
  end.
Definition consume_next (d : evdb) (tpl : N) : option notif * evdb :=
  match drop_closed (d_events d) (d_pending d) with
  | [] => (None, set_pending d [])
  | n :: t => if n_tpl n <=? tpl then (None, set_pending d (n :: t)) else (Some n, set_pending d t)
  end.

(** ** The event services of events.rs, without their raise/restore (modelled in Tpl/Model.v) *)

(** The database together with SYSTEM_TIME (events.rs:29). *)
Record evsys := MkSys { s_db : evdb; s_time : N }.
Definition sys_new dbg miss := MkSys (db_new dbg miss) 0.

Inductive ev_op :=
| OCreate (ty tpl : N) (fn ctx : option N)                      (* CreateEvent *)
| OCreateEx (ty tpl : N) (fn ctx group : option N)              (* CreateEventEx *)
| OClose (id : N)                                               (* CloseEvent *)
| OSignal (id : N)                                              (* SignalEvent *)
| OSignalGroup (g : N)                                          (* group signalled by the core *)
| OPoll (id : N)                                                (* first half of CheckEvent: poll, else queue *)
| ORead (id : N)                                                (* second half of CheckEvent *)
| OSetTimer (id : N) (k : timer_delay) (time : N)               (* SetTimer *)
| OTick (delta : N)                                             (* timer interrupt *)
| ODispatch (tpl : N).                                          (* one notification taken by RestoreTPL *)

Inductive ev_out :=
| REvent (id : N) | RUnit | RReady | RNotReady | RNotify (n : option notif) | RErr (e : efi_error) | RPanic.

Definition out_unit (r : res efi_error unit) : ev_out :=
  match r with Ok _ => RUnit | Err e => RErr e | Panic => RPanic end.
Definition out_id (r : res efi_error N) : ev_out :=
  match r with Ok i => REvent i | Err e => RErr e | Panic => RPanic end.

(** events.rs:31-60 [create_event] and :62-94 [create_event_ex] (pointer checks not modelled). *)
Definition svc_create (d : evdb) (ty tpl : N) (fn ctx : option N) : res efi_error N * evdb :=
  if ty =? EVT_SIGNAL_EXIT_BOOT_SERVICES then create_event d EVT_NOTIFY_SIGNAL tpl fn ctx (Some GROUP_EXIT_BOOT_SERVICES)
  else if ty =? EVT_SIGNAL_VIRTUAL_ADDRESS_CHANGE then create_event d EVT_NOTIFY_SIGNAL tpl fn ctx (Some GROUP_VIRTUAL_ADDRESS_CHANGE)
  else create_event d ty tpl fn ctx None.
Definition svc_create_ex (d : evdb) (ty tpl : N) (fn ctx group : option N) : res efi_error N * evdb :=
  if (ty =? EVT_SIGNAL_EXIT_BOOT_SERVICES) || (ty =? EVT_SIGNAL_VIRTUAL_ADDRESS_CHANGE) then (Err InvalidParameter, d)
  else create_event d ty tpl fn ctx group.

(** events.rs:154-176 [check_event] up to the raise/restore. *)
Definition svc_poll (d : evdb) (id : N) : ev_out * evdb :=
  match get_event_type d id with
  | Err e => (RErr e, d)
  | Panic => (RPanic, d)
  | Ok ty =>
    if is_notify_signal ty then (RErr InvalidParameter, d)
    else match read_and_clear_signaled d id with
    | (Ok true, d') => (RReady, d')
    | (Ok false, d') =>
      match queue_event_notify d' id with
      | (Ok _, d'') => (RNotReady, d'')
      | (Err e, d'') => (RErr e, d'')
      | (Panic, d'') => (RPanic, d'')
      end
    | (Err e, d') => (RErr e, d')
    | (Panic, d') => (RPanic, d')
    end
  end.
(** events.rs:182-191: the final poll of [check_event].  Only reached for an event that was not notify-signal, and
    identifiers are never reused, so the type test of line 160 is repeated here to keep the operation separate. *)
Definition svc_read (d : evdb) (id : N) : ev_out * evdb :=
  match get_event_type d id with
  | Ok ty =>
    if is_notify_signal ty then (RErr InvalidParameter, d)
    else match read_and_clear_signaled d id with
    | (Ok true, d') => (RReady, d')
    | (Ok false, d') => (RNotReady, d')
    | (Err e, d') => (RErr e, d')
    | (Panic, d') => (RPanic, d')
    end
  | _ => (RNotReady, d)
  end.

(** events.rs:194-210 [set_timer]. *)
Definition svc_set_timer (s : evsys) (id : N) (k : timer_delay) (time : N) : ev_out * evdb :=
  let d := s_db s in
  match k with
  | TCancel => let (r, d') := db_set_timer d id k None None in (out_unit r, d')
  | _ =>
    match @uadd efi_error (d_dbg d) (s_time s) time with
    | Ok t =>
      let (r, d') := db_set_timer d id k (Some t) (match k with TPeriodic => Some time | _ => None end) in
      (out_unit r, d')
    | _ => (RPanic, d)
    end
  end.

(** events.rs:247-270: take one notification and, for a notify-signal event, clear its signalled state.
    [get_event_type(..).unwrap()] panics if the event has gone. *)
Definition svc_dispatch (d : evdb) (tpl : N) : ev_out * evdb :=
  match consume_next d tpl with
  | (None, d') => (RNotify None, d')
  | (Some n, d') =>
    match get_event_type d' (n_event n) with
    | Ok ty => (RNotify (Some n), if is_notify_signal ty then snd (clear_signal d' (n_event n)) else d')
    | _ => (RPanic, d')
    end
  end.

Definition ev_step (s : evsys) (o : ev_op) : ev_out * evsys :=
  let d := s_db s in
  let keep (p : ev_out * evdb) := (fst p, MkSys (snd p) (s_time s)) in
  match o with
  | OCreate ty tpl fn ctx => let (r, d') := svc_create d ty tpl fn ctx in keep (out_id r, d')
  | OCreateEx ty tpl fn ctx g => let (r, d') := svc_create_ex d ty tpl fn ctx g in keep (out_id r, d')
  | OClose id => let (r, d') := close_event d id in keep (out_unit r, d')
  | OSignal id => let (r, d') := signal_event d id in keep (out_unit r, d')
  | OSignalGroup g => keep (RUnit, signal_group d g)
  | OPoll id => keep (svc_poll d id)
  | ORead id => keep (svc_read d id)
  | OSetTimer id k t => keep (svc_set_timer s id k t)
  | OTick delta =>
    (* events.rs:290-294; AtomicU64::fetch_add wraps *)
    let now := (s_time s + delta) mod two64 in
    match db_timer_tick d now with
    | Ok d' => (RUnit, MkSys d' now)
    | _ => (RPanic, MkSys d now)
    end
  | ODispatch tpl => keep (svc_dispatch d tpl)
  end.

Fixpoint ev_run (s : evsys) (ops : list ev_op) : evsys :=
  match ops with [] => s | o :: t => ev_run (snd (ev_step s o)) t end.
