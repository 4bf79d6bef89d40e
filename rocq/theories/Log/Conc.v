(** * Concurrent writers of the memory log

    Every writer runs [add_log_entry] (memory_log.rs:180-240) as a sequence of
    atomic steps; the scheduler is arbitrary.  The shared counter
    [log_current_offset] is accessed with relaxed ordering: a load, and the
    value returned by a failed compare-exchange, may be any value the counter
    has ever held; a successful compare-exchange is atomic on the latest
    value.  The bytes of a slot may become visible in any order. *)

From Verif Require Import Base.Prelude Base.Bytes Log.Spec Log.Model.
Open Scope N_scope.

(** What does not change: header fields and the data region's length. *)
Record cfg := Cfg { c_dbg : bool; c_off : N; c_size : N; c_len : N; c_rw : bool }.

(** Shared memory: the counter, every value it has held (latest first), the
    discarded count, the data bytes. *)
Record shared := Shared { s_cur : N; s_hist : list N; s_disc : N; s_data : N -> N }.

Inductive pstate :=
| PStart                              (* line 190 *)
| PLoop (cur : N)                     (* line 199, current_offset = cur *)
| PDiscard                            (* line 215 *)
| PWrite (idx : N) (todo : list N)    (* lines 229-237, slot bytes not yet stored *)
| POk                                 (* returned Ok *)
| PErr (e : efi_error)                (* returned Err e *)
| PPanic.

(** The scheduler's choice for the step of the selected writer. *)
Inductive choice :=
| CLoad (v : N)     (* the load returns v *)
| CTry              (* loop test; if it holds, a compare-exchange that succeeds *)
| CFail (v : N)     (* loop test holds, the compare-exchange fails and returns v *)
| CByte (k : N)     (* byte k of the slot is stored *)
| CGo.              (* the only possible step *)

Definition seen (v : N) (g : shared) : bool := existsb (N.eqb v) (s_hist g).

Definition cfg_full (c : cfg) : option N := add32 (c_dbg c) (c_off c) (c_size c).

(** The part after a successful reservation at [cur], memory_log.rs:219-230. *)
Definition after_reserve (c : cfg) (e : entry) (cur sz : N) : pstate :=
  match sub32 (c_dbg c) cur (c_off c) with
  | None => PPanic
  | Some idx =>
      if negb (c_rw c) then PErr AccessDenied
      else if c_len c <? idx + sz then PErr BufferTooSmall
      else if sz <? ENTRY_SIZE + e_len e then PPanic
      else PWrite idx (map N.of_nat (seq 0 (N.to_nat sz)))
  end.

(** One step of a writer of [e]; [None]: the choice does not apply. *)
Definition pnext (c : cfg) (e : entry) (g : shared) (p : pstate) (ch : choice)
  : option (shared * pstate) :=
  match p, ch with
  | PStart, CLoad v =>
      if seen v g
      then Some (g, match message_size (c_dbg c) e with None => PPanic | Some _ => PLoop v end)
      else None
  | PLoop cur, CTry =>
      match message_size (c_dbg c) e, cfg_full c with
      | Some sz, Some full =>
          match add32 (c_dbg c) cur sz with
          | None => Some (g, PPanic)
          | Some next =>
              if next <=? full then
                if s_cur g =? cur
                then Some (Shared next (next :: s_hist g) (s_disc g) (s_data g), after_reserve c e cur sz)
                else None
              else Some (g, PDiscard)
          end
      | _, _ => Some (g, PPanic)
      end
  | PLoop cur, CFail v =>
      match message_size (c_dbg c) e, cfg_full c with
      | Some sz, Some full =>
          match add32 (c_dbg c) cur sz with
          | None => Some (g, PPanic)
          | Some next =>
              if (next <=? full) && seen v g && negb (v =? cur) then Some (g, PLoop v) else None
          end
      | _, _ => Some (g, PPanic)
      end
  | PDiscard, CGo =>
      match message_size (c_dbg c) e with
      | None => Some (g, PPanic)
      | Some sz => Some (Shared (s_cur g) (s_hist g) ((s_disc g + sz) mod two32) (s_data g),
                         PErr OutOfResources)
      end
  | PWrite idx todo, CByte k =>
      match message_size (c_dbg c) e with
      | None => Some (g, PPanic)
      | Some sz =>
          if existsb (N.eqb k) todo
          then Some (Shared (s_cur g) (s_hist g) (s_disc g)
                            (write_at (s_data g) (idx + k) [nth (N.to_nat k) (stored_bytes e sz) 0]),
                     PWrite idx (filter (fun j => negb (j =? k)) todo))
          else None
      end
  | PWrite _ [], CGo => Some (g, POk)
  | _, _ => None
  end.

(** All writers: each with its message and where it is. *)
Definition system := (shared * list (entry * pstate))%type.

Fixpoint upd {A} (i : nat) (x : A) (l : list A) : list A :=
  match i, l with
  | O, _ :: t => x :: t
  | S i', y :: t => y :: upd i' x t
  | _, [] => []
  end.

(** One step of the system: some writer makes some step. *)
Inductive step (c : cfg) : system -> system -> Prop :=
| step_at g ps i e p ch g' p' :
    nth_error ps i = Some (e, p) -> pnext c e g p ch = Some (g', p') ->
    step c (g, ps) (g', upd i (e, p') ps).

Inductive reach (c : cfg) : system -> system -> Prop :=
| reach_refl s : reach c s s
| reach_step s s' s'' : reach c s s' -> step c s' s'' -> reach c s s''.

(** Executable runs, for examples. *)
Fixpoint run (c : cfg) (s : system) (sch : list (nat * choice)) : option system :=
  match sch with
  | [] => Some s
  | (i, ch) :: r =>
      match nth_error (snd s) i with
      | None => None
      | Some (e, p) =>
          match pnext c e (fst s) p ch with
          | None => None
          | Some (g', p') => run c (g', upd i (e, p') (snd s)) r
          end
      end
  end.

(** All writers about to start. *)
Definition start (g : shared) (es : list entry) : system := (g, map (fun e => (e, PStart)) es).

(** The log as a reader sees it. *)
Definition as_log (c : cfg) (g : shared) : log :=
  Log (Info SIGNATURE VERSION (c_off c) (s_cur g) (s_disc g) (c_size c) false 0 0)
      (s_data g) (c_len c) (c_rw c).

Definition of_log (dbg : bool) (l : log) : cfg * shared :=
  (Cfg dbg (i_off (l_info l)) (i_size (l_info l)) (l_len l) (l_rw l),
   Shared (i_cur (l_info l)) [i_cur (l_info l)] (i_disc (l_info l)) (l_data l)).
