(** What the dispatcher promises, said of the events alone. *)
From Verif Require Import Base.Prelude Base.Bytes Depex.Model Depex.Spec Dispatch.Model.
Local Open Scope N_scope.

(** The drivers started, newest first. *)
Definition started (evs : list event) : list nat := flat_map (fun e => match e with EvStart _ id => [id] | _ => [] end) evs.

(** The drivers pass [p] went through, in order. *)
Definition tried (p : nat) (evs : list event) : list nat :=
  flat_map (fun e => match e with EvTry q id => if Nat.eqb q p then [id] else [] | _ => [] end) (rev evs).

(** The drivers pass [p] started, in order. *)
Definition started_in (p : nat) (evs : list event) : list nat :=
  flat_map (fun e => match e with EvStart q id => if Nat.eqb q p then [id] else [] | _ => [] end) (rev evs).
(** [a] is [b] with some left out. *)
Inductive sublist {A} : list A -> list A -> Prop :=
| sub_nil : sublist [] []
| sub_skip x a b : sublist a b -> sublist a (x :: b)
| sub_keep x a b : sublist a b -> sublist (x :: a) (x :: b).

(** The protocols were [ps] at some pass. *)
Definition seen (evs : list event) (ps : list bytes) : Prop := exists q, In (EvPass q ps) evs.

(** A dependency expression [e] over protocols holds in a pass with protocols
    [now], after earlier passes with [old]: a protocol counts from when it was
    first seen. *)
Definition holds_at (evs : list event) (p : nat) (e : expr) : Prop :=
  exists now old, In (EvPass p now) evs /\ Forall (seen evs) old /\ holds (fun g => In g now \/ exists ps, In ps old /\ In g ps) e.

(** The dependency of a file, as its depex section says it. *)
Inductive dependency :=
| DArch                                                             (* no depex: all architectural protocols *)
| DExpr (e : expr) | DOnRequest (e : expr)                          (* the latter only after a schedule request *)
| DBefore (g : bytes) | DAfter (g : bytes).
Inductive says : option bytes -> dependency -> Prop :=
| says_none : says None DArch
| says_expr e tail : wf_expr e -> says (Some (depex_bytes e ++ tail)) (DExpr e)
| says_sor e tail : wf_expr e -> says (Some (9 :: depex_bytes e ++ tail)) (DOnRequest e)
| says_before g : wf_guid g -> says (Some (0 :: g ++ [8])) (DBefore g)
| says_after g : wf_guid g -> says (Some (1 :: g ++ [8])) (DAfter g).

(** The architectural protocols of PI 1.8, II-10.9: BDS, CPU, metronome,
    monotonic counter, real time clock, reset, runtime, security, timer,
    variable write, variable, watchdog. *)
Definition guid_of (a b c d : N) : bytes := le_bytes 4 a ++ le_bytes 2 b ++ le_bytes 2 c ++ rev (le_bytes 8 d).
Definition arch_protocols : list bytes :=
  [ guid_of 0x665e3ff6 0x46cc 0x11d4 0x9a380090273fc14d; guid_of 0x26baccb1 0x6f42 0x11d4 0xbce70080c73c8881;
    guid_of 0x26baccb2 0x6f42 0x11d4 0xbce70080c73c8881; guid_of 0x1da97072 0xbddc 0x4b30 0x99f172a0b56fff2a;
    guid_of 0x27cfac87 0x46cc 0x11d4 0x9a380090273fc14d; guid_of 0x27cfac88 0x46cc 0x11d4 0x9a380090273fc14d;
    guid_of 0xb7dfb4e1 0x052f 0x449f 0x87be9818fc91b733; guid_of 0xa46423e3 0x4617 0x49f1 0xb9ffd1bfa9115839;
    guid_of 0x26baccb3 0x6f42 0x11d4 0xbce70080c73c8881; guid_of 0x6441f818 0x6362 0x4e44 0xb5707dba31dd2453;
    guid_of 0x1e5668e2 0x8481 0x11d4 0xbcf10080c73c8881; guid_of 0x665e3ff5 0x46cc 0x11d4 0x9a380090273fc14d ].

(** The driver's own dependency is met in pass [p]. *)
Definition met (evs : list event) (p : nat) (fv : N) (file : bytes) (dep : dependency) : Prop :=
  match dep with
  | DArch => exists q ps, (q <= p)%nat /\ In (EvPass q ps) evs /\ incl arch_protocols ps
  | DExpr e => holds_at evs p e
  | DOnRequest e => In (EvSchedule fv file true) evs /\ holds_at evs p e
  | DBefore _ | DAfter _ => False
  end.

(** The drivers of one group run one after the other: those BEFORE the middle
    one, the middle one, whose dependency is met, those AFTER it. *)
Record group := Group { g_before : list nat; g_middle : nat; g_after : list nat }.
Definition members (g : group) : list nat := g_before g ++ g_middle g :: g_after g.

(** As far as a depex section says something: a malformed one is not judged. *)
Definition group_ok (evs : list event) (p : nat) (g : group) : Prop :=
  exists fv file depex, In (EvFound (g_middle g) fv file depex) evs /\
    (forall dep, says depex dep -> met evs p fv file dep) /\
    Forall (fun id => exists fv' file' depex', In (EvFound id fv' file' depex') evs /\ forall dep, says depex' dep -> dep = DBefore file) (g_before g) /\
    Forall (fun id => exists fv' file' depex', In (EvFound id fv' file' depex') evs /\ forall dep, says depex' dep -> dep = DAfter file) (g_after g).

Definition prefix {A} (a b : list A) : Prop := exists c, b = a ++ c.

(** Loading found driver [id] to fail security, and it was told to be trusted. *)
Definition cleared (evs : list event) (id : nat) : Prop :=
  In (EvLoad id (Loaded SSuccess)) evs \/
  (In (EvLoad id (Loaded SViolation)) evs /\ exists fv file depex, In (EvFound id fv file depex) evs /\ In (EvTrust fv file true) evs).

(** The drivers the dispatcher holds. *)
Definition held (w : world) : list nat := map d_id (w_pending w ++ concat (map snd (w_before w)) ++ concat (map snd (w_after w))).

(** [id] waits in the dispatcher. *)
Definition waits (w : world) (id : nat) : Prop := In id (held w).

(** Nothing holds [id] back but its own dependency, which is not met now:
    a protocol counts once it was seen in a pass.  A driver BEFORE or AFTER
    file [g] stays if no file [g] was gone through in the last pass, other
    than one that is BEFORE or AFTER a third. *)
Definition associated (dep : dependency) : Prop := match dep with DBefore _ | DAfter _ => True | _ => False end.
Definition fails_now (w : world) (e : expr) : Prop :=
  exists old, Forall (seen (w_events w)) old /\ ~ holds (fun g => In g (w_protocols w) \/ exists ps, In ps old /\ In g ps) e.
Definition blocked (w : world) (id : nat) : Prop :=
  forall fv file depex dep, In (EvFound id fv file depex) (w_events w) -> says depex dep ->
    match dep with
    | DArch => ~ incl arch_protocols (w_protocols w)
    | DExpr e => fails_now w e
    | DOnRequest e => w_events (core_schedule w fv file) = EvSchedule fv file true :: w_events w \/ fails_now w e
    | DBefore g | DAfter g =>
        forall id' fv' depex' dep', In (EvFound id' fv' g depex') (w_events w) -> says depex' dep' -> In id' (tried (pred (w_pass w)) (w_events w)) -> associated dep'
    end.
