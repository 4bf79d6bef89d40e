(** The debugger's serial connection and the PL011 driver.  core/patina_debugger/src/transport.rs, sdk/patina/src/serial/uart.rs. *)
From Verif Require Import Base.Prelude Serial.Spec.
Local Open Scope N_scope.

(** ** PL011 *)

(** uart.rs:123-125. *)
Definition FR_BUSY : N := 8.
Definition FR_RXFE : N := 16.
Definition FR_TXFF : N := 32.

(** Every access to the device takes a tick of the schedule first.  [None]: the schedule ended while the code waited. *)
Section Pl011.
  Variable depth : nat.
  (** uart.rs:179-183, and the loops of 151 and 161. *)
  Fixpoint wait_clear (mask : N) (d : dev) (s : list tick) : option (dev * list tick) :=
    match s with
    | [] => None
    | t :: s => let d := step depth d t in if N.land (UARTFR depth d) mask =? 0 then Some (d, s) else wait_clear mask d s
    end.
  (** uart.rs:149-162. *)
  Definition write_byte (b : N) (d : dev) (s : list tick) : option (dev * list tick) :=
    match wait_clear FR_TXFF d s with
    | Some (d, t :: s) => wait_clear FR_BUSY (dr_write depth (step depth d t) b) s
    | _ => None
    end.
  (** uart.rs:165-177. *)
  Definition read_byte (d : dev) (s : list tick) : option (option N * dev * list tick) :=
    match s with
    | [] => None
    | t :: s =>
        let d := step depth d t in
        if negb (N.land (UARTFR depth d) FR_RXFE =? 0) then Some (None, d, s)
        else match s with
             | [] => None
             | t :: s => let (b, d) := dr_read (step depth d t) in Some (Some b, d, s)
             end
    end.
  (** uart.rs:193-197. *)
  Fixpoint uart_write (l : list N) (d : dev) (s : list tick) : option (dev * list tick) :=
    match l with
    | [] => Some (d, s)
    | b :: l => match write_byte b d s with Some (d, s) => uart_write l d s | None => None end
    end.
  (** uart.rs:199-205; [fuel] at least the length of the schedule. *)
  Fixpoint uart_read (fuel : nat) (d : dev) (s : list tick) : option (N * dev * list tick) :=
    match fuel with
    | O => None
    | S fuel => match read_byte d s with None => None | Some (Some b, d, s) => Some (b, d, s) | Some (None, d, s) => uart_read fuel d s end
    end.

  (** ** The connection *)

  (** transport.rs:21-26. *)
  Record conn := Conn { peeked : option N; port : dev; sched : list tick }.
  (** transport.rs:39-43. *)
  Definition c_write (b : N) (c : conn) : option conn := match uart_write [b] (port c) (sched c) with Some (d, s) => Some (Conn (peeked c) d s) | None => None end.
  (** transport.rs:54-61. *)
  Definition c_read (c : conn) : option (N * conn) :=
    match peeked c with
    | Some b => Some (b, Conn None (port c) (sched c))
    | None => match uart_read (length (sched c)) (port c) (sched c) with Some (b, d, s) => Some (b, Conn None d s) | None => None end
    end.
  (** transport.rs:64-76. *)
  Definition c_peek (c : conn) : option (option N * conn) :=
    match peeked c with
    | Some b => Some (Some b, c)
    | None => match read_byte (port c) (sched c) with
              | Some (Some b, d, s) => Some (Some b, Conn (Some b) d s)
              | Some (None, d, s) => Some (None, Conn None d s)
              | None => None
              end
    end.

  (** A history of calls; what was read and written, in order. *)
  Inductive call := Write (b : N) | Read | Peek.
  Fixpoint run (l : list call) (c : conn) (got put : list N) : option (conn * list N * list N) :=
    match l with
    | [] => Some (c, got, put)
    | Write b :: l => match c_write b c with Some c => run l c got (put ++ [b]) | None => None end
    | Read :: l => match c_read c with Some (b, c) => run l c (got ++ [b]) put | None => None end
    | Peek :: l => match c_peek c with Some (_, c) => run l c got put | None => None end
    end.
End Pl011.

(** ** Suspended logging *)

(** What is done with the logger: a message, a change of the level, a scope with a suspender (transport.rs:84-98), which Rust leaves in the reverse order. *)
Inductive act := Message (level : N) | SetLevel (level : N) | Suspended (l : list act).
(** The log macros emit a message if its level is not above the maximum. *)
Fixpoint act_run (a : act) (level : N) : list N * N :=
  match a with
  | Message m => (if (1 <=? m) && (m <=? level) then [m] else [], level)
  | SetLevel l => ([], l)
  | Suspended l =>
      let fix go (l : list act) (level : N) : list N * N :=
        match l with [] => ([], level) | a :: l => let (o, level) := act_run a level in let (o', level) := go l level in (o ++ o', level) end in
      let saved := level in
      let (o, _) := go l 0 in
      (o, saved)
  end.
(** Things that do not change the level. *)
Inductive quiet : act -> Prop :=
| quiet_message : forall m, quiet (Message m)
| quiet_suspended : forall l, Forall quiet l -> quiet (Suspended l).
