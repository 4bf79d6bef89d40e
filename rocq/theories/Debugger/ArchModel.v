(** The x86-64 part of the debugger, core/patina_debugger/src/arch/x64.rs, and the handling of an exception, debugger.rs:365-416. *)
From Verif Require Import Base.Prelude Base.Bytes.
Local Open Scope N_scope.

(** ** Registers *)

(** EfiSystemContextX64: the registers the debugger touches; [x_data] is the exception data, [x_rest] the others. *)
Record ctx := Ctx {
  rax : N; rbx : N; rcx : N; rdx : N; rsi : N; rdi : N; rbp : N; rsp : N;
  r8 : N; r9 : N; r10 : N; r11 : N; r12 : N; r13 : N; r14 : N; r15 : N;
  rip : N; rflags : N; cs : N; ss : N; ds : N; es : N; fs : N; gs : N;
  cr0 : N; cr2 : N; cr3 : N; cr4 : N; x_data : N; x_rest : N }.

(** x64.rs:211-227; [g_fpu] and [g_st] are the bytes of the floating point registers. *)
Record gregs := Gregs { g_regs : list N; g_rip : N; g_eflags : N; g_segments : list N; g_control : list N; g_fpu : list N; g_st : list N }.

(** x64.rs:306-340. *)
Definition from_context (c : ctx) : gregs :=
  Gregs [rax c; rbx c; rcx c; rdx c; rsi c; rdi c; rbp c; rsp c; r8 c; r9 c; r10 c; r11 c; r12 c; r13 c; r14 c; r15 c]
    (rip c) (rflags c)
    [cs c mod two32; ss c mod two32; ds c mod two32; es c mod two32; fs c mod two32; gs c mod two32]
    [cr0 c; cr2 c; cr3 c; cr4 c] (repeat 0 28) (repeat 0 90).

(** x64.rs:342-374. *)
Definition write_to_context (g : gregs) (c : ctx) : ctx :=
  let r i := nth i (g_regs g) 0 in let s i := nth i (g_segments g) 0 in let k i := nth i (g_control g) 0 in
  Ctx (r 0%nat) (r 1%nat) (r 2%nat) (r 3%nat) (r 4%nat) (r 5%nat) (r 6%nat) (r 7%nat)
    (r 8%nat) (r 9%nat) (r 10%nat) (r 11%nat) (r 12%nat) (r 13%nat) (r 14%nat) (r 15%nat)
    (g_rip g) (g_eflags g) (s 0%nat) (s 1%nat) (s 2%nat) (s 3%nat) (s 4%nat) (s 5%nat)
    (k 0%nat) (k 1%nat) (k 2%nat) (k 3%nat) (x_data c) (x_rest c).

(** x64.rs:236-267. *)
Definition gdb_serialize (g : gregs) : list N :=
  flat_map (le_bytes 8) (g_regs g) ++ le_bytes 8 (g_rip g) ++ le_bytes 8 (g_eflags g)
  ++ flat_map (le_bytes 4) (g_segments g) ++ flat_map (le_bytes 8) (g_control g) ++ g_fpu g ++ g_st g.

(** x64.rs:272-282: a value of [w] bytes; the offset moves by eight whatever the width (279). *)
Definition read_value (bytes : list N) (w off : nat) : res unit (N * nat) :=
  if (length bytes <? off + w)%nat then Err tt
  else Ok (le_val (firstn w (skipn off bytes)), (off + 8)%nat).
Fixpoint read_values (bytes : list N) (w k off : nat) : res unit (list N * nat) :=
  match k with
  | O => Ok ([], off)
  | S k => let* (v, off) := read_value bytes w off in let* (l, off) := read_values bytes w k off in Ok (v :: l, off)
  end.
(** x64.rs:269-302. *)
Definition gdb_deserialize (g : gregs) (bytes : list N) : res unit gregs :=
  let* (regs, off) := read_values bytes 8 16 0 in
  let* (ip, off) := read_value bytes 8 off in
  let* (fl, off) := read_value bytes 8 off in
  let* (segs, off) := read_values bytes 4 6 off in
  let* (ctl, off) := read_values bytes 8 4 off in
  Ok (Gregs regs ip fl segs ctl (g_fpu g) (g_st g)).

(** dbg_target.rs:119-127 with the packets "g" and "G" of the protocol: all registers are sent, and all are set. *)
Definition packet_read (c : ctx) : list N := gdb_serialize (from_context c).
Definition packet_write (c : ctx) (bytes : list N) : res unit ctx :=
  let* g := gdb_deserialize (from_context c) bytes in Ok (write_to_context g c).

(** x64.rs:377-403: kind, index, size. *)
Inductive reg_id := Gpr (i : N) | Rip | Eflags | Segment (i : N) | Control (i : N) | Fpu (i : N) | St (i : N).
Definition from_raw_id (id : N) : option (reg_id * N) :=
  if id <=? 15 then Some (Gpr id, 8)
  else if id =? 16 then Some (Rip, 8)
  else if id =? 17 then Some (Eflags, 8)
  else if id <=? 23 then Some (Segment (id - 18), 4)
  else if id <=? 28 then Some (Control (id - 24), 8)
  else if id <=? 35 then Some (Fpu (id - 24), 4)
  else if id <=? 44 then Some (St (id - 31), 10)
  else None.

(** ** An exception *)

Definition INT_3 : N := 0xCC.
Inductive xtype := Step | Breakpoint | GeneralProtection (data : N) | AccessViolation (address : N) | Other (n : N).
Record xinfo := Xinfo { i_type : xtype; i_ip : N; i_ctx : ctx }.

Definition with_rip (c : ctx) (v : N) : ctx :=
  Ctx (rax c) (rbx c) (rcx c) (rdx c) (rsi c) (rdi c) (rbp c) (rsp c) (r8 c) (r9 c) (r10 c) (r11 c) (r12 c) (r13 c) (r14 c) (r15 c)
    v (rflags c) (cs c) (ss c) (ds c) (es c) (fs c) (gs c) (cr0 c) (cr2 c) (cr3 c) (cr4 c) (x_data c) (x_rest c).
Definition with_flags (c : ctx) (v : N) : ctx :=
  Ctx (rax c) (rbx c) (rcx c) (rdx c) (rsi c) (rdi c) (rbp c) (rsp c) (r8 c) (r9 c) (r10 c) (r11 c) (r12 c) (r13 c) (r14 c) (r15 c)
    (rip c) v (cs c) (ss c) (ds c) (es c) (fs c) (gs c) (cr0 c) (cr2 c) (cr3 c) (cr4 c) (x_data c) (x_rest c).

(** x64.rs:45-65; the context is changed in place, and copied. *)
Definition process_entry (dbg : bool) (n : N) (c : ctx) : res unit (xinfo * ctx) :=
  if n =? 1 then let c := with_flags c (N.ldiff (rflags c) 0x100) in Ok (Xinfo Step (rip c) c, c)
  else if n =? 3 then let* ip := usub dbg (rip c) 1 in let c := with_rip c ip in Ok (Xinfo Breakpoint ip c, c)
  else if n =? 13 then Ok (Xinfo (GeneralProtection (x_data c)) (rip c) c, c)
  else if n =? 14 then Ok (Xinfo (AccessViolation (cr2 c)) (rip c) c, c)
  else Ok (Xinfo (Other n) (rip c) c, c).
(** x64.rs:67-83. *)
Definition process_exit (dbg : bool) (m : N -> N) (i : xinfo) : res unit xinfo :=
  match i_type i with
  | Breakpoint =>
      if m (rip (i_ctx i)) =? INT_3
      then let* ip := uadd dbg (rip (i_ctx i)) 1 in Ok (Xinfo (i_type i) (i_ip i) (with_rip (i_ctx i) ip))
      else Ok i
  | _ => Ok i
  end.
(** x64.rs:85-87. *)
Definition set_single_step (i : xinfo) : xinfo := Xinfo (i_type i) (i_ip i) (with_flags (i_ctx i) (N.lor (rflags (i_ctx i)) 0x100)).

(** What happens in [enter_debugger] (debugger.rs:150-253): the user changes the context and resumes, or the protocol fails, or the transport. *)
Inductive session := Resume (f : ctx -> ctx) | StubError | TransportError.
(** debugger.rs:391-415, after the test for a poke; the memory [m] is the one at the resumption.  [None]: no return. *)
Fixpoint handle_exception (dbg : bool) (n : N) (m : N -> N) (c : ctx) (l : list session) : option (res unit ctx) :=
  match l with
  | [] => None
  | s :: l =>
      match process_entry dbg n c with
      | Ok (i, c') =>
          match s with
          | Resume f => Some (let* i := process_exit dbg m (Xinfo (i_type i) (i_ip i) (f (i_ctx i))) in Ok (i_ctx i))
          | StubError => handle_exception dbg n m c' l
          | TransportError => None
          end
      | Err x => Some (Err x)
      | Panic => Some Panic
      end
  end.

(** ** Watchpoints *)

Inductive watch := WRead | WWrite | WReadWrite.
(** DR0 to DR3 and DR7. *)
Record dregs := Dregs { d_addr : list N; d_7 : N }.
Definition indices : list nat := [0; 1; 2; 3]%nat.

(** x64.rs:450-463. *)
Definition clear_all (d7 : N) : N := N.ldiff d7 0xFF.
Definition get_enabled (d7 : N) (i : nat) : bool := negb (N.land (N.shiftr d7 (N.of_nat i * 2)) 1 =? 0).
Definition set_enabled (d7 : N) (i : nat) (b : bool) : N :=
  if b then N.lor d7 (N.shiftl 1 (N.of_nat i * 2)) else N.ldiff d7 (N.shiftl 1 (N.of_nat i * 2)).
(** x64.rs:466-476. *)
Definition set_rw (d7 : N) (i : nat) (k : watch) : N :=
  let d7 := N.ldiff d7 (N.shiftl 3 (N.of_nat i * 4 + 16)) in
  match k with
  | WRead | WReadWrite => N.lor d7 (N.shiftl 3 (N.of_nat i * 4 + 16))
  | WWrite => N.lor d7 (N.shiftl 1 (N.of_nat i * 4 + 16))
  end.
(** x64.rs:478-488. *)
Definition set_len (d7 : N) (i : nat) (len : N) : N :=
  let len := if len =? 1 then 0 else if len =? 2 then 1 else if len =? 4 then 2 else 3 in
  N.lor (N.ldiff d7 (N.shiftl 3 (N.of_nat i * 4 + 18))) (N.shiftl len (N.of_nat i * 4 + 18)).
Fixpoint set_addr (l : list N) (i : nat) (a : N) : list N :=
  match l, i with [], _ => [] | _ :: r, O => a :: r | x :: r, S i => x :: set_addr r i a end.

(** x64.rs:89-94. *)
Definition initialize (d : dregs) : dregs := Dregs (d_addr d) (clear_all (d_7 d)).
(** x64.rs:96-117. *)
Definition add_watchpoint (d : dregs) (address length : N) (k : watch) : bool * dregs :=
  match find (fun i => get_enabled (d_7 d) i && (nth i (d_addr d) 0 =? address)) indices with
  | Some _ => (true, d)
  | None =>
      match find (fun i => negb (get_enabled (d_7 d) i)) indices with
      | Some i => (true, Dregs (set_addr (d_addr d) i address) (set_enabled (set_rw (set_len (d_7 d) i length) i k) i true))
      | None => (false, d)
      end
  end.
(** x64.rs:119-129. *)
Definition remove_watchpoint (d : dregs) (address length : N) (k : watch) : bool * dregs :=
  match find (fun i => get_enabled (d_7 d) i && (nth i (d_addr d) 0 =? address)) indices with
  | Some i => (true, Dregs (d_addr d) (set_enabled (d_7 d) i false))
  | None => (false, d)
  end.
