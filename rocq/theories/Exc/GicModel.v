(** Hardware interrupts on AArch64: the hardware interrupt protocols (patina_dxe_core/src/hw_interrupt_protocol.rs:65-452) over the interrupt controller
    (core/patina_internal_cpu/src/interrupts/aarch64/gic_manager.rs:117-204).
    The arm-gic crate is not part of the repository: what its calls do is taken from the GICv3 architecture (one bit per interrupt to enable it, two bits of
    configuration, interrupts 0-15 SGI, 16-31 PPI, from 32 SPI).  Panics inside that crate, priorities and routing are not modelled. *)
From Verif Require Import Base.Prelude.
Local Open Scope N_scope.

(** The controller: words of enable bits and of trigger configuration, and the interrupts that were acknowledged and not ended. *)
Record gic := Gic { g_enable : N -> N; g_config : N -> N; g_active : N -> bool }.
Definition set {A} (f : N -> A) (i : N) (v : A) : N -> A := fun x => if x =? i then v else f x.
(** GicV3::enable_interrupt, set_trigger, end_interrupt: by the architecture. *)
Definition enable_interrupt (g : gic) (id : N) (on : bool) : gic :=
  let w := g_enable g (id / 32) in let bit := N.shiftl 1 (id mod 32) in
  Gic (set (g_enable g) (id / 32) (if on then N.lor w bit else N.ldiff w bit)) (g_config g) (g_active g).
Definition set_trigger (g : gic) (id : N) (edge : bool) : gic :=
  let w := g_config g (id / 16) in let bit := N.shiftl 1 (2 * (id mod 16) + 1) in
  Gic (g_enable g) (set (g_config g) (id / 16) (if edge then N.lor w bit else N.ldiff w bit)) (g_active g).
Definition set_active (g : gic) (id : N) (b : bool) : gic := Gic (g_enable g) (g_config g) (set (g_active g) id b).

(** hw_interrupt_protocol.rs:377-380, 472-474: as many handlers as the controller has SPIs ([num]); nothing enabled (gic_manager.rs:95). *)
Record st := St { s_handlers : N -> option N; s_gic : gic }.
Definition start (cfg : N -> N) : st := St (fun _ => None) (Gic (fun _ => 0) cfg (fun _ => false)).
Definition with_gic (s : st) (g : gic) : st := St (s_handlers s) g.

(** gic_manager.rs:122-136; IntId::spi(k) is interrupt k + 32. *)
Definition source_to_intid (num src : N) : res efi_error N :=
  if two32 <=? src then Err InvalidParameter
  else if src <? 16 then Ok src
  else if src <? 32 then Ok (16 + (src - 16))
  else let id := (src - 16 + 16) + 32 in if num <? id then Err InvalidParameter else Ok id.

Inductive op :=
| Register (src : N) (h : option N) | Enable (src : N) | Disable (src : N) | GetState (src : N) | EndOf (src : N)
| GetTrigger (src : N) | SetTrigger (src : N) (edge : bool).
Inductive answer := Success | Failed (e : efi_error) | State (on : bool) | Edge (b : bool).
Definition plain {A} (r : res efi_error A) (f : A -> st) (s : st) : st * answer :=
  match r with Ok x => (f x, Success) | Err e => (s, Failed e) | Panic => (s, Failed OtherError) end.

(** gic_manager.rs:139-148, 169-172, 195-198 *)
Definition enable_source (num : N) (s : st) (src : N) (on : bool) : st * answer :=
  plain (source_to_intid num src) (fun id => with_gic s (enable_interrupt (s_gic s) id on)) s.
Definition end_of_interrupt (num : N) (s : st) (src : N) : st * answer :=
  plain (source_to_intid num src) (fun id => with_gic s (set_active (s_gic s) id false)) s.
Definition set_trigger_type (num : N) (s : st) (src : N) (edge : bool) : st * answer :=
  plain (source_to_intid num src) (fun id => with_gic s (set_trigger (s_gic s) id edge)) s.
(** 151-166: the word of the redistributor for private interrupts is word 0. *)
Definition get_state (num : N) (s : st) (src : N) : answer :=
  let index := src / 32 in let bit := N.shiftl 1 (src mod 32) in
  match source_to_intid num src with
  | Ok id => State (negb (N.land (g_enable (s_gic s) (if id <? 32 then 0 else index)) bit =? 0))
  | Err e => Failed e | Panic => Failed OtherError
  end.
(** 175-192 *)
Definition get_trigger_type (num : N) (s : st) (src : N) : answer :=
  let index := src / 16 in let bit := N.shiftl 1 (src mod 16) in
  match source_to_intid num src with
  | Ok id => let level := negb (N.land (g_config (s_gic s) index) bit =? 0) in Edge (negb level)
  | Err e => Failed e | Panic => Failed OtherError
  end.
(** hw_interrupt_protocol.rs:425-451 *)
Definition register_source (num : N) (s : st) (src : N) (h : option N) : st * answer :=
  if num <=? src then (s, Failed InvalidParameter)
  else
    match h, s_handlers s src with
    | None, None => (s, Failed InvalidParameter)
    | Some _, Some _ => (s, Failed AlreadyStarted)
    | None, Some _ => enable_source num (St (set (s_handlers s) src None) (s_gic s)) src false
    | Some h, None => enable_source num (St (set (s_handlers s) src (Some h)) (s_gic s)) src true
    end.

(** One call.  [locked]: made by an interrupt handler, which runs while the table of handlers is locked (hw_interrupt_protocol.rs:405-406: the guard lives as
    long as the if); locking again panics (tpl_lock.rs:73). *)
Definition call (num : N) (locked : bool) (s : st) (o : op) : option (st * answer) :=
  match o with
  | Register src h => if locked then None else Some (register_source num s src h)
  | Enable src => Some (enable_source num s src true)
  | Disable src => Some (enable_source num s src false)
  | GetState src => Some (s, get_state num s src)
  | EndOf src => Some (end_of_interrupt num s src)
  | GetTrigger src => Some (s, get_trigger_type num s src)
  | SetTrigger src e => Some (set_trigger_type num s src e)
  end.

(** What is seen. *)
Inductive event := Answered (a : answer) | Invoked (id h : N).
Fixpoint calls (num : N) (locked : bool) (s : st) (l : list op) : option (st * list event) :=
  match l with
  | [] => Some (s, [])
  | o :: l =>
      match call num locked s o with
      | None => None
      | Some (s, a) => match calls num locked s l with None => None | Some (s, log) => Some (s, Answered a :: log) end
      end
  end.

(** hw_interrupt_protocol.rs:383-413, on the acknowledgment of [id]. *)
Definition handle_interrupt (num : N) (body : N -> list op) (s : st) (id : N) : option (st * list event) :=
  let s := with_gic s (set_active (s_gic s) id true) in
  if num <=? id then Some (s, [])
  else
    match s_handlers s id with
    | Some h => match calls num true s (body h) with None => None | Some (s, log) => Some (s, Invoked id h :: log) end
    | None => None
    end.

(** A history: calls and signals of devices.  The controller delivers an interrupt that is enabled and not active. *)
Inductive step := Call (o : op) | Signal (id : N).
Definition enabled (g : gic) (id : N) : bool := N.testbit (g_enable g (id / 32)) (id mod 32).
Definition act (num : N) (body : N -> list op) (s : st) (x : step) : option (st * list event) :=
  match x with
  | Call o => calls num false s [o]
  | Signal id => if enabled (s_gic s) id && negb (g_active (s_gic s) id) then handle_interrupt num body s id else Some (s, [])
  end.
Fixpoint run (num : N) (body : N -> list op) (s : st) (l : list step) : option (st * list event) :=
  match l with
  | [] => Some (s, [])
  | x :: l =>
      match act num body s x with
      | None => None
      | Some (s, log) => match run num body s l with None => None | Some (s, log') => Some (s, log ++ log') end
      end
  end.
