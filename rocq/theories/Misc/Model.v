(** Model of the miscellaneous boot services: Stall, SetWatchdogTimer, CalculateCrc32's argument checks and
    ExitBootServices.
    Source: /repo/patina_dxe_core/src/misc_boot_services.rs, systemtables.rs:685-694, runtime.rs:82-87. *)
From Verif Require Import Base.Prelude.
Local Open Scope N_scope.

(** Status codes these services return. *)
Inductive status := SUCCESS | INVALID_PARAMETER | NOT_READY | DEVICE_ERROR | ERR (e : efi_error).

Definition u32_max : N := 2 ^ 32 - 1.
Global Arguments u32_max : simpl never.

(** misc_boot_services.rs:58-64, the [while] loop.  The result is the list of tick counts passed to
    [wait_for_tick], then the remaining ticks.  [fuel] bounds the iterations; [None] is out of fuel, and
    [stall_fuel] below is shown to suffice. Errors from [wait_for_tick] are only logged (60-62, 68-70). *)
Fixpoint stall_loop (fuel : nat) (ticks : N) (waits : list N) : option (list N * N) :=
  match fuel with
  | O => None
  | S f => if u32_max <? ticks then stall_loop f (ticks - u32_max) (waits ++ [u32_max])
           else Some (waits, ticks)
  end.
Definition stall_fuel (ticks : N) : nat := S (N.to_nat (ticks / u32_max)).

(** misc_boot_services.rs:52-74 [stall].  [metronome] is the tick period (100 ns units, u32) of the metronome
    protocol, [None] while it is not installed.  A tick period of zero divides by zero. *)
Definition stall (metronome : option N) (microseconds : N) : res unit (status * list N) :=
  match metronome with
  | None => Ok (NOT_READY, [])
  | Some period =>
      let ticks_100ns := microseconds * 10 in            (* u128: cannot overflow for a u64 argument *)
      if period =? 0 then Panic
      else
        match stall_loop (stall_fuel (ticks_100ns / period)) (ticks_100ns / period) [] with
        | None => Panic
        | Some (waits, rest) =>
            Ok (SUCCESS, if negb (rest =? 0) then waits ++ [rest mod 2 ^ 32] else waits)
        end
  end.

(** misc_boot_services.rs:85-103 [set_watchdog_timer].  [watchdog] answers whether the driver accepts a
    period; the second result is the period passed to it, if any. *)
Definition set_watchdog_timer (watchdog : option (N -> bool)) (timeout : N) : status * option N :=
  match watchdog with
  | None => (NOT_READY, None)
  | Some accept =>
      let t := N.min (timeout * 10000000) u64_max in     (* saturating_mul *)
      (if accept t then SUCCESS else DEVICE_ERROR, Some t)
  end.

(** misc_boot_services.rs:37-48 [calculate_crc32]; [crc] is the CRC32 of the [crc32fast] crate, not modelled.
    The first result is the status, the second what is written through the output pointer. *)
Definition calculate_crc32 (crc : list N -> N) (data : option (list N)) (out_null : bool) : status * option N :=
  match data with
  | None => (INVALID_PARAMETER, None)
  | Some bytes =>
      if (N.of_nat (length bytes) =? 0) || out_null then (INVALID_PARAMETER, None)
      else (SUCCESS, Some (crc bytes))
  end.

(** ** ExitBootServices *)

(** Event groups it signals. *)
Inductive group := PRE_EBS | BEFORE_EBS | EBS | EBS_FAILED.

(** The machine state it reads and writes.
    [x_called] is the static EXIT_BOOT_SERVICES_CALLED (line 136); [x_timer] the period last given to the timer
    driver; [x_locked] whether the GCD refuses allocation and freeing; [x_ints] CPU interrupts; [x_services]
    whether the system table still holds boot services and consoles; [x_runtime] the runtime protocol's
    at_runtime flag; [x_signals] the groups signalled and [x_status] the status codes reported, oldest first. *)
Record xstate := mkx {
  x_called : bool; x_timer : N; x_locked : bool; x_ints : bool; x_services : bool; x_runtime : bool;
  x_signals : list group; x_reports : N
}.

Definition set_called s := mkx true (x_timer s) (x_locked s) (x_ints s) (x_services s) (x_runtime s) (x_signals s) (x_reports s).
Definition set_timer p s := mkx (x_called s) p (x_locked s) (x_ints s) (x_services s) (x_runtime s) (x_signals s) (x_reports s).
Definition set_locked b s := mkx (x_called s) (x_timer s) b (x_ints s) (x_services s) (x_runtime s) (x_signals s) (x_reports s).
Definition set_ints b s := mkx (x_called s) (x_timer s) (x_locked s) b (x_services s) (x_runtime s) (x_signals s) (x_reports s).
Definition set_services b s := mkx (x_called s) (x_timer s) (x_locked s) (x_ints s) b (x_runtime s) (x_signals s) (x_reports s).
Definition set_runtime b s := mkx (x_called s) (x_timer s) (x_locked s) (x_ints s) (x_services s) b (x_signals s) (x_reports s).
Definition log_signal g s := mkx (x_called s) (x_timer s) (x_locked s) (x_ints s) (x_services s) (x_runtime s) (x_signals s ++ [g]) (x_reports s).
Definition report s := mkx (x_called s) (x_timer s) (x_locked s) (x_ints s) (x_services s) (x_runtime s) (x_signals s) (x_reports s + 1).

(** What one call meets: the caller's map key; whether the timer, status-code and runtime protocols can be
    located; the key of the memory map at the moment it is checked, or the error in computing it
    (allocator.rs:768-775); whether the system table exists; and what the notification functions of each
    group do to the state. *)
Record xenv := mkenv {
  e_key : N; e_timer : bool; e_report : bool; e_runtime : bool;
  e_map : res efi_error N; e_systable : bool;
  e_notify : group -> xstate -> xstate
}.

(** [EVENT_DB.signal_group]: the group is signalled, then its notification functions run. *)
Definition signal (e : xenv) (g : group) (s : xstate) : xstate := e_notify e g (log_signal g s).

(** allocator.rs:768-775 [terminate_memory_map]. *)
Definition terminate_memory_map (e : xenv) : res efi_error unit :=
  let* k := e_map e in
  if e_key e =? k then Ok tt else Err InvalidParameter.

(** misc_boot_services.rs:135-216 [exit_boot_services].  [None] is a panic (the [expect] at line 198 or one inside the
    memory-map computation). *)
Definition exit_boot_services (e : xenv) (s : xstate) : option (status * xstate) :=
  let s1 :=                                                         (* 140-147 *)
    if x_called s then s
    else set_called (signal e BEFORE_EBS (signal e PRE_EBS s)) in
  let s2 := if e_timer e then set_timer 0 s1 else s1 in             (* 150-157 *)
  let s3 := set_locked true s2 in                                   (* 160 *)
  match terminate_memory_map e with                                 (* 164-172 *)
  | Panic => None
  | Err err => Some (ERR err, signal e EBS_FAILED (set_locked false s3))
  | Ok _ =>
      let s4 := signal e EBS s3 in                                  (* 175 *)
      let s5 := if e_report e then report s4 else s4 in             (* 178-191 *)
      let s6 := set_ints false s5 in                                (* 194 *)
      if e_systable e then
        let s7 := set_services false s6 in                          (* 197-201 *)
        let s8 := if e_runtime e then set_runtime true s7 else s7 in  (* 203-212 *)
        Some (SUCCESS, s8)
      else None
  end.

(** A sequence of calls; stops at a panic. *)
Fixpoint exit_calls (es : list xenv) (s : xstate) : option (list status * xstate) :=
  match es with
  | [] => Some ([], s)
  | e :: t =>
      match exit_boot_services e s with
      | None => None
      | Some (r, s1) => match exit_calls t s1 with None => None | Some (rs, s2) => Some (r :: rs, s2) end
      end
  end.
