(** What is promised about priority levels and TPL mutexes. *)
From Verif Require Import Base.Prelude Event.Model Event.Spec Tpl.Model.
Local Open Scope N_scope.

(** Machine states reachable by running outside code from power-on. *)
Inductive reached (w : world) : mach -> Prop :=
| reached_new dbg miss : reached w (mach_new dbg miss)
| reached_run st fuel p st' : reached w st -> exec w fuel (CRun p) st = ODone tt st' -> reached w st'
| reached_restore st fuel new st' : reached w st -> exec w fuel (CRestore new) st = ODone tt st' -> reached w st'
| reached_irq st fuel d st' : reached w st -> exec w fuel (CIrq d) st = ODone tt st' -> reached w st'.

(** No interrupt is ever taken. *)
Definition silent (w : world) : Prop := forall st, w_irq w st = None.

(** A notification is waiting for a live event, above a level. *)
Definition waiting_above (st : mach) (level : N) : Prop :=
  exists x, In x (pending (m_sys st)) /\ live (m_sys st) (notice_event x) <> None /\ level < notice_tpl x.

(** The notification functions run between two machine states (the trace is most recent first). *)
Definition ran (st st' : mach) (t : tevent) : Prop :=
  exists more, m_trace st' = more ++ m_trace st /\ In t more.

(** The mutexes with a live guard. *)
Definition holders (st : mach) : list N := map fst (m_guards st).

(** Service calls in a row, then nested raise/restore pairs around them. *)
Fixpoint calls (body : list svc) (k : prog) : prog :=
  match body with [] => k | o :: r => PSvc o (fun _ => calls r k) end.
Fixpoint nested (ts : list N) (body : list svc) (k : prog) : prog :=
  match ts with [] => calls body k | t :: r => PRaise t (fun prev => nested r body (PRestore prev k)) end.

(** Same machine for a program: everything it can observe except the interrupt flag, the clock, and notifications of
    closed events (which are never delivered). *)
Definition live_pending (st : mach) : list notice :=
  filter (fun x => match live (m_sys st) (notice_event x) with Some _ => true | None => false end) (pending (m_sys st)).
Definition same_for_code (st st' : mach) : Prop :=
  m_cur st' = m_cur st /\ m_guards st' = m_guards st /\ m_bits st' = m_bits st /\ m_trace st' = m_trace st /\
  d_events (s_db (m_sys st')) = d_events (s_db (m_sys st)) /\ s_time (m_sys st') = s_time (m_sys st) /\
  live_pending st' = live_pending st.
