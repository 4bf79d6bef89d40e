(** Model of the task priority levels (patina_dxe_core/src/events.rs: raise_tpl, restore_tpl, timer_tick, check_event,
    signal_event) and of the two TPL mutexes (patina_dxe_core/src/tpl_lock.rs, sdk/patina/src/tpl_mutex.rs).

    Code outside the core (drivers, notification functions) is an arbitrary program over the services below.  The
    interpreter is fuelled: [OFuel] says nothing about the execution, so theorems are about executions that return or
    panic.  A hardware timer interrupt may be taken at every point marked [poll] at which interrupts are enabled. *)
From Verif Require Import Base.Prelude Event.Model.
Local Open Scope N_scope.

(** What the machine records about the notification functions it runs: the notification, the current TPL when the
    function is entered, the level being restored by the [restore_tpl] that runs it, whether the event was still in the
    database, and the live mutex guards. *)
Inductive tevent := TRun (n : notif) (at_tpl level : N) (alive : bool) (guards : list (N * N)).

(** - [m_cur]: CURRENT_TPL (events.rs:28); [m_prog]: EVENT_NOTIFIES_IN_PROGRESS (events.rs:246);
    - [m_irq]: whether the processor accepts interrupts;
    - [m_bits]: for each TPL mutex, its [lock] flag; [m_guards]: the live guards, as (mutex, release TPL);
    - [m_clock]: counts interrupt opportunities, so that a schedule is a function of the machine state;
    - [m_trace]: most recent first. *)
Record mach := MkM {
  m_sys : evsys; m_cur : N; m_prog : bool; m_irq : bool;
  m_bits : N -> bool; m_guards : list (N * N); m_clock : N; m_trace : list tevent }.

Definition set_sys (st : mach) (s : evsys) : mach :=
  MkM s (m_cur st) (m_prog st) (m_irq st) (m_bits st) (m_guards st) (m_clock st) (m_trace st).
Definition set_cur (st : mach) (c : N) : mach :=
  MkM (m_sys st) c (m_prog st) (m_irq st) (m_bits st) (m_guards st) (m_clock st) (m_trace st).
Definition set_prog (st : mach) (b : bool) : mach :=
  MkM (m_sys st) (m_cur st) b (m_irq st) (m_bits st) (m_guards st) (m_clock st) (m_trace st).
Definition set_irq (st : mach) (b : bool) : mach :=
  MkM (m_sys st) (m_cur st) (m_prog st) b (m_bits st) (m_guards st) (m_clock st) (m_trace st).
Definition set_bit (st : mach) (m : N) (b : bool) : mach :=
  MkM (m_sys st) (m_cur st) (m_prog st) (m_irq st) (fun i => if i =? m then b else m_bits st i) (m_guards st) (m_clock st) (m_trace st).
Definition set_guards (st : mach) (g : list (N * N)) : mach :=
  MkM (m_sys st) (m_cur st) (m_prog st) (m_irq st) (m_bits st) g (m_clock st) (m_trace st).
Definition bump_clock (st : mach) : mach :=
  MkM (m_sys st) (m_cur st) (m_prog st) (m_irq st) (m_bits st) (m_guards st) (m_clock st + 1) (m_trace st).
Definition add_trace (st : mach) (t : tevent) : mach :=
  MkM (m_sys st) (m_cur st) (m_prog st) (m_irq st) (m_bits st) (m_guards st) (m_clock st) (t :: m_trace st).

(** Services available to outside code. *)
Inductive svc :=
| VCreate (ty tpl : N) (fn ctx : option N) | VCreateEx (ty tpl : N) (fn ctx group : option N)
| VClose (id : N) | VSignal (id : N) | VCheck (id : N) | VSetTimer (id : N) (k : timer_delay) (t : N)
| VSignalGroup (g : N).

(** Outside code: a tree of calls, each continuing on the result.  [PTryLock]/[PDrop] take and drop a guard of a TPL
    mutex; [PPanic] is any panic of the code itself (for instance [lock()] on a held mutex). *)
Inductive prog :=
| PDone
| PPanic
| PSvc (o : svc) (k : ev_out -> prog)
| PRaise (tpl : N) (k : N -> prog)
| PRestore (tpl : N) (k : prog)
| PTryLock (m : N) (k : bool -> prog)
| PDrop (m : N) (k : prog).

(** tpl_lock.rs:73-75 and tpl_mutex.rs:49-51 [lock]. *)
Definition PLock (m : N) (k : prog) : prog := PTryLock m (fun got => if got then k else PPanic).

(** The outside world: the notification functions (arbitrary programs, chosen from the whole machine state and the
    notification), the interrupt schedule ([Some delta]: a timer interrupt reporting [delta] elapsed units), and the
    level and kind (core or SDK) of each mutex. *)
Record world := MkW {
  w_cb : mach -> notif -> prog; w_irq : mach -> option N; w_level : N -> N; w_sdk : N -> bool }.

Inductive cmd := CRestore (new : N) | CLoop (new : N) | CIrq (delta : N) | CRun (p : prog).

Inductive outcome (A : Type) := ODone (a : A) (st : mach) | OPanicked (st : mach) | OFuel.
Arguments ODone {A}. Arguments OPanicked {A}. Arguments OFuel {A}.
Definition obind {A B} (o : outcome A) (f : A -> mach -> outcome B) : outcome B :=
  match o with ODone a st => f a st | OPanicked st => OPanicked st | OFuel => OFuel end.

Section Exec.
Variable w : world.
Variable rec : cmd -> mach -> outcome unit.

(** An opportunity for a timer interrupt. *)
Definition poll (st : mach) : outcome unit :=
  let st1 := bump_clock st in
  if m_irq st1 then match w_irq w st1 with Some d => rec (CIrq d) st1 | None => ODone tt st1 end
  else ODone tt st1.

(** events.rs:212-226 [raise_tpl]. *)
Definition do_raise (new : N) (st : mach) : outcome N :=
  if TPL_HIGH_LEVEL <? new then OPanicked st
  else
    let prev := m_cur st in
    let st1 := set_cur st (N.max prev new) in
    obind (poll st1) (fun _ st2 =>
    if new <? prev then OPanicked st2
    else
      let st3 := if (new =? TPL_HIGH_LEVEL) && (prev <? TPL_HIGH_LEVEL) then set_irq st2 false else st2 in
      ODone prev st3).

(** One [EVENT_DB] call: event_db.rs:559-731 take the lock, a [TplMutex] at TPL_HIGH_LEVEL (tpl_lock.rs:78-91), run
    the operation, and drop the guard (tpl_lock.rs:130-139).  Its lock flag is not represented: nothing runs while
    it is set. *)
Definition db_call {A} (f : evsys -> A * evsys) (st : mach) : outcome A :=
  obind (do_raise TPL_HIGH_LEVEL st) (fun prev st1 =>
  let (a, s') := f (m_sys st1) in
  obind (rec (CRestore prev) (set_sys st1 s')) (fun _ st2 => ODone a st2)).

(** The raise/restore pair of events.rs:112-115 and :177-178. *)
Definition nudge (st : mach) : outcome unit :=
  obind (do_raise TPL_HIGH_LEVEL st) (fun prev st1 => rec (CRestore prev) st1).

Definition lift_db {A} (f : evdb -> A * evdb) (s : evsys) : A * evsys :=
  let (a, d') := f (s_db s) in (a, MkSys d' (s_time s)).

(** events.rs:154-191 [check_event]. *)
Definition do_check (id : N) (st : mach) : outcome ev_out :=
  obind (db_call (fun s => (get_event_type (s_db s) id, s)) st) (fun ty st1 =>
  match ty with
  | Err e => ODone (RErr e) st1
  | Panic => OPanicked st1
  | Ok ty =>
    if is_notify_signal ty then ODone (RErr InvalidParameter) st1
    else obind (db_call (lift_db (fun d => read_and_clear_signaled d id)) st1) (fun r st2 =>
    match r with
    | Ok true => ODone RReady st2
    | Err e => ODone (RErr e) st2
    | Panic => OPanicked st2
    | Ok false =>
      obind (db_call (lift_db (fun d => queue_event_notify d id)) st2) (fun q st3 =>
      match q with
      | Err e => ODone (RErr e) st3
      | Panic => OPanicked st3
      | Ok _ =>
        obind (nudge st3) (fun _ st4 =>
        obind (db_call (lift_db (fun d => read_and_clear_signaled d id)) st4) (fun r2 st5 =>
        match r2 with
        | Ok true => ODone RReady st5
        | Ok false => ODone RNotReady st5
        | Err e => ODone (RErr e) st5
        | Panic => OPanicked st5
        end))
      end)
    end)
  end).

Definition panic_if (b : bool) (o : outcome ev_out) : outcome ev_out :=
  obind o (fun r st => match r with RPanic => if b then OPanicked st else ODone r st | _ => ODone r st end).

(** events.rs:31-116, 194-210: the remaining services.  A panic of the database operation is a panic. *)
Definition do_svc (o : svc) (st : mach) : outcome ev_out :=
  panic_if true
  match o with
  | VCreate ty tpl fn ctx => db_call (fun s => ev_step s (OCreate ty tpl fn ctx)) st
  | VCreateEx ty tpl fn ctx g => db_call (fun s => ev_step s (OCreateEx ty tpl fn ctx g)) st
  | VClose id => db_call (fun s => ev_step s (OClose id)) st
  | VSignal id =>
    obind (db_call (fun s => ev_step s (OSignal id)) st) (fun r st1 =>
    obind (nudge st1) (fun _ st2 => ODone r st2))
  | VCheck id => do_check id st
  | VSetTimer id k t => db_call (fun s => ev_step s (OSetTimer id k t)) st
  | VSignalGroup g => db_call (fun s => ev_step s (OSignalGroup g)) st
  end.

(** [try_lock]: tpl_lock.rs:78-91 raises first, then takes the flag, restoring on failure; tpl_mutex.rs:58-63 takes
    the flag first and raises only when it got it. *)
Definition do_try_lock (m : N) (st : mach) : outcome bool :=
  if w_sdk w m then
    if m_bits st m then ODone false st
    else
      let st1 := set_bit st m true in
      obind (poll st1) (fun _ st2 =>
      obind (do_raise (w_level w m) st2) (fun prev st3 =>
      ODone true (set_guards st3 ((m, prev) :: m_guards st3))))
  else
    obind (do_raise (w_level w m) st) (fun prev st1 =>
    obind (poll st1) (fun _ st2 =>
    if m_bits st2 m then
      obind (rec (CRestore prev) st2) (fun _ st3 => ODone false st3)
    else
      let st3 := set_bit st2 m true in
      ODone true (set_guards st3 ((m, prev) :: m_guards st3)))).

(** Find and remove the guard of [m]. *)
Fixpoint take_guard (m : N) (g : list (N * N)) : option (N * list (N * N)) :=
  match g with
  | [] => None
  | (i, p) :: t => if i =? m then Some (p, t)
                   else match take_guard m t with Some (q, t') => Some (q, (i, p) :: t') | None => None end
  end.

(** Dropping a guard: tpl_lock.rs:130-139 clears the flag, then restores the TPL; tpl_mutex.rs:66-71 restores the TPL,
    then clears the flag.  Dropping a guard that does not exist cannot be written in Rust: no effect. *)
Definition do_drop (m : N) (st : mach) : outcome unit :=
  match take_guard m (m_guards st) with
  | None => ODone tt st
  | Some (prev, g) =>
    let st1 := set_guards st g in
    if w_sdk w m then
      obind (rec (CRestore prev) st1) (fun _ st2 => ODone tt (set_bit st2 m false))
    else
      obind (poll (set_bit st1 m false)) (fun _ st2 => rec (CRestore prev) st2)
  end.

(** events.rs:228-283 [restore_tpl] up to the loop, and its end. *)
Definition do_restore (new : N) (st : mach) : outcome unit :=
  let prev := m_cur st in
  let st1 := set_cur st (N.min prev new) in
  obind (poll st1) (fun _ st2 =>
  if prev <? new then OPanicked st2
  else
    obind (if new <? prev then rec (CLoop new) st2 else ODone tt st2) (fun _ st3 =>
    let st4 := if new <? TPL_HIGH_LEVEL then set_irq st3 true else st3 in
    obind (poll st4) (fun _ st5 => ODone tt (set_cur st5 new)))).

(** events.rs:240-277: one turn of the loop. *)
Definition do_loop (new : N) (st : mach) : outcome unit :=
  if m_prog st then ODone tt st
  else
    obind (db_call (lift_db (fun d => consume_next d new)) (set_prog st true)) (fun r st1 =>
    obind (poll st1) (fun _ st2 =>
    let st3 := set_prog st2 false in
    obind (poll st3) (fun _ st4 =>
    match r with
    | None => ODone tt st4
    | Some n =>
      let st5 := set_irq st4 (n_tpl n <? TPL_HIGH_LEVEL) in
      obind (poll st5) (fun _ st6 =>
      let st7 := set_cur st6 (n_tpl n) in
      obind (poll st7) (fun _ st8 =>
      obind (db_call (fun s => (get_event_type (s_db s) (n_event n), s)) st8) (fun ty st9 =>
      match ty with
      | Ok ty =>
        obind (if is_notify_signal ty
               then obind (db_call (lift_db (fun d => clear_signal d (n_event n))) st9) (fun _ s => ODone tt s)
               else ODone tt st9) (fun _ st10 =>
        obind (poll st10) (fun _ st11 =>
        let alive := match em_get (d_events (s_db (m_sys st11))) (n_event n) with Some _ => true | None => false end in
        let st12 := add_trace st11 (TRun n (m_cur st11) new alive (m_guards st11)) in
        obind (match n_fn n with Some _ => rec (CRun (w_cb w st12 n)) st12 | None => ODone tt st12 end) (fun _ st13 =>
        rec (CLoop new) st13)))
      | _ => OPanicked st9
      end)))
    end))).

(** events.rs:290-296 [timer_tick], as an interrupt handler: the processor masks interrupts on entry and unmasks them
    on return. *)
Definition do_irq (delta : N) (st : mach) : outcome unit :=
  obind (do_raise TPL_HIGH_LEVEL (set_irq st false)) (fun old st1 =>
  obind (panic_if true (db_call (fun s => ev_step s (OTick delta)) st1)) (fun _ st2 =>
  obind (rec (CRestore old) st2) (fun _ st3 => ODone tt (set_irq st3 true)))).

(** Outside code. *)
Definition do_run (p : prog) (st : mach) : outcome unit :=
  obind (poll st) (fun _ st1 =>
  match p with
  | PDone => ODone tt st1
  | PPanic => OPanicked st1
  | PSvc o k => obind (do_svc o st1) (fun r st2 => rec (CRun (k r)) st2)
  | PRaise tpl k => obind (do_raise tpl st1) (fun prev st2 => rec (CRun (k prev)) st2)
  | PRestore tpl k => obind (rec (CRestore tpl) st1) (fun _ st2 => rec (CRun k) st2)
  | PTryLock m k => obind (do_try_lock m st1) (fun got st2 => rec (CRun (k got)) st2)
  | PDrop m k => obind (do_drop m st1) (fun _ st2 => rec (CRun k) st2)
  end).
End Exec.

Fixpoint exec (w : world) (fuel : nat) (c : cmd) (st : mach) : outcome unit :=
  match fuel with
  | O => OFuel
  | S f =>
    match c with
    | CRestore new => do_restore w (exec w f) new st
    | CLoop new => do_loop w (exec w f) new st
    | CIrq d => do_irq w (exec w f) d st
    | CRun p => do_run w (exec w f) p st
    end
  end.

(** Power-on: events.rs:25-29. *)
Definition mach_new (dbg : bool) (miss : N -> bool) : mach :=
  MkM (sys_new dbg miss) TPL_APPLICATION false true (fun _ => false) [] 0 [].
