(** Cache maintenance and timers of the CPU architectural protocol: core/patina_internal_cpu/src/cpu/{aarch64,x64}/cpu.rs and
    patina_dxe_core/src/cpu_arch_protocol.rs. *)
From Verif Require Import Base.Prelude.
Local Open Scope N_scope.

(** The flush types of the PI specification (patina_pi's protocols/cpu_arch.rs). *)
Inductive flush := WriteBackInvalidate | WriteBack | Invalidate.
Definition UNSUPPORTED : N := 2 ^ 63 + 3.
Definition INVALID_PARAMETER : N := 2 ^ 63 + 2.

(** ** AArch64 *)

(** aarch64/cpu.rs:85-94: the length of a line of the data cache, from CTR_EL0. *)
Definition line_len (ctr : N) : N := N.shiftl 4 (N.land (N.shiftr ctr 16) 15).
(** aarch64/cpu.rs:34-47: the operations by address, in order.  [Err tt]: out of fuel. *)
Fixpoint cache_loop (dbg : bool) (fuel : nat) (step a e : N) (f : flush) : res unit (list (flush * N)) :=
  match fuel with
  | O => Err tt
  | S fuel =>
      let* a' := uadd dbg a step in
      if e <=? a' then Ok [(f, a)]
      else let* r := cache_loop dbg fuel step a' e f in Ok ((f, a) :: r)
  end.
(** aarch64/cpu.rs:29-56, 58-83 (clean, invalidate, clean and invalidate: the type of the flush names the operation), 104-112. *)
Definition arm_flush (dbg : bool) (fuel : nat) (ctr start length : N) (f : flush) : res unit (list (flush * N)) :=
  let alignment := line_len ctr - 1 in
  let a := start - N.land start alignment in
  let* e := uadd dbg start length in
  cache_loop dbg fuel alignment a e f.

(** ** x64 *)

(** x64/cpu.rs:128-145: what is done to the whole cache. *)
Definition x64_flush (f : flush) : res N flush :=
  match f with
  | WriteBackInvalidate => Ok WriteBackInvalidate
  | Invalidate => Ok Invalidate
  | WriteBack => Err UNSUPPORTED
  end.
(** x64/cpu.rs:51-61, 87-94: the counter is a constant and there is no delay. *)
Definition read_tsc : N := 0.
Definition timer_period (period : N) : N := let b := read_tsc in let e := read_tsc in if negb (e =? b) then 100000000000 / (e - b) else period.
(** x64/cpu.rs:151-159; the period starts at zero (line 30). *)
Definition x64_timer (index : N) : res N (N * N) := if negb (index =? 0) then Err INVALID_PARAMETER else Ok (read_tsc, timer_period 0).
(** aarch64/cpu.rs:118-120. *)
Definition arm_timer (index : N) : res N (N * N) := Err UNSUPPORTED.

(** cpu_arch_protocol.rs:129-153: addresses of the two results, the processor's answer; the status and what is written. *)
Definition get_timer_value (pv pp : N) (r : res N (N * N)) : N * list (N * N) :=
  if (pv =? 0) || (pp =? 0) then (INVALID_PARAMETER, [])
  else match r with
       | Ok (v, p) => (0, [(pv, v); (pp, p)])
       | Err e => (e, [])
       | Panic => (0, [])
       end.
