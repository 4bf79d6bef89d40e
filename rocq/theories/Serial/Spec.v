(** A PL011 as its manual has it, and what goes over the line. *)
From Verif Require Import Base.Prelude.
Local Open Scope N_scope.

(** What the device does between two accesses of the processor: nothing, send a byte from its queue, or receive one. *)
Inductive tick := Idle | Shift | Arrive (b : N).
(** Queues for receiving and sending, of [depth] bytes; what went out on the line; what came in and was queued; what was written to a full queue. *)
Record dev := Dev { rx : list N; tx : list N; line : list N; arrived : list N; dropped : list N }.
Definition idle_dev : dev := Dev [] [] [] [] [].
Definition step (depth : nat) (d : dev) (t : tick) : dev :=
  match t with
  | Idle => d
  | Shift => match tx d with [] => d | b :: q => Dev (rx d) q (line d ++ [b]) (arrived d) (dropped d) end
  | Arrive b => if Nat.ltb (length (rx d)) depth then Dev (rx d ++ [b]) (tx d) (line d) (arrived d ++ [b]) (dropped d) else d
  end.
(** UARTFR: bit 3 BUSY, bit 4 RXFE, bit 5 TXFF (bit 7, TXFE, too). *)
Definition UARTFR (depth : nat) (d : dev) : N :=
  (match tx d with [] => 0 | _ => 8 end) + (match rx d with [] => 16 | _ => 0 end) + (if Nat.leb depth (length (tx d)) then 32 else 0) + (match tx d with [] => 128 | _ => 0 end).
(** UARTDR. *)
Definition dr_write (depth : nat) (d : dev) (b : N) : dev :=
  if Nat.ltb (length (tx d)) depth then Dev (rx d) (tx d ++ [b]) (line d) (arrived d) (dropped d) else Dev (rx d) (tx d) (line d) (arrived d) (dropped d ++ [b]).
Definition dr_read (d : dev) : N * dev := match rx d with [] => (0, d) | b :: q => (b, Dev q (tx d) (line d) (arrived d) (dropped d)) end.

(** How often the device sends in a schedule. *)
Fixpoint shifts (s : list tick) : nat := match s with [] => 0 | Shift :: s => S (shifts s) | _ :: s => shifts s end.
