(** The AArch64 part of the debugger, core/patina_debugger/src/arch/aarch64.rs, and the handling of an exception, debugger.rs:365-416.
    [xtype], [watch], [read_value] and [read_values] are those of ArchModel: the same types, and aarch64.rs:362-372 is the same macro. *)
From Verif Require Import Base.Prelude Base.Bytes Debugger.ArchModel.
Local Open Scope N_scope.

(** ** Registers *)

(** EfiSystemContextAArch64: [a_x] are x0 to x28 in order, [a_rest] what the debugger does not touch (the vector registers). *)
Record actx := Actx { a_x : list N; a_fp : N; a_lr : N; a_sp : N; a_elr : N; a_spsr : N; a_fpsr : N; a_esr : N; a_far : N; a_rest : N }.
Definition with_elr (c : actx) (v : N) : actx := Actx (a_x c) (a_fp c) (a_lr c) (a_sp c) v (a_spsr c) (a_fpsr c) (a_esr c) (a_far c) (a_rest c).
Definition with_spsr (c : actx) (v : N) : actx := Actx (a_x c) (a_fp c) (a_lr c) (a_sp c) (a_elr c) v (a_fpsr c) (a_esr c) (a_far c) (a_rest c).

(** aarch64.rs:318-330. *)
Record aregs := Aregs { ar_regs : list N; ar_sp : N; ar_pc : N; ar_fpcr : N; ar_cpsr : N }.
(** aarch64.rs:387-427. *)
Definition a_from_context (c : actx) : aregs := Aregs (a_x c ++ [a_fp c; a_lr c]) (a_sp c) (a_elr c) (a_fpsr c) (a_spsr c mod two32).
(** aarch64.rs:429-465. *)
Definition a_write_to_context (g : aregs) (c : actx) : actx :=
  Actx (firstn 29 (ar_regs g)) (nth 29 (ar_regs g) 0) (nth 30 (ar_regs g) 0) (ar_sp g) (ar_pc g) (ar_cpsr g) (ar_fpcr g) (a_esr c) (a_far c) (a_rest c).
(** aarch64.rs:339-356. *)
Definition a_serialize (g : aregs) : list N :=
  flat_map (le_bytes 8) (ar_regs g) ++ le_bytes 8 (ar_sp g) ++ le_bytes 8 (ar_pc g) ++ le_bytes 8 (ar_fpcr g) ++ le_bytes 4 (ar_cpsr g).
(** aarch64.rs:359-383. *)
Definition a_deserialize (bytes : list N) : res unit aregs :=
  let* (regs, off) := read_values bytes 8 31 0 in
  let* (sp, off) := read_value bytes 8 off in
  let* (pc, off) := read_value bytes 8 off in
  let* (fpcr, off) := read_value bytes 8 off in
  let* (cpsr, off) := read_value bytes 4 off in
  Ok (Aregs regs sp pc fpcr cpsr).
(** dbg_target.rs:119-127 with the packets "g" and "G" of the protocol. *)
Definition a_packet_read (c : actx) : list N := a_serialize (a_from_context c).
Definition a_packet_write (c : actx) (bytes : list N) : res unit actx :=
  let* g := a_deserialize bytes in Ok (a_write_to_context g c).

(** aarch64.rs:469-495: kind and size. *)
Inductive areg_id := AGpr (i : N) | AFp | ALr | ASp | AElr | AFpsr | ASpsr.
Definition a_from_raw_id (id : N) : option (areg_id * N) :=
  if id <=? 28 then Some (AGpr id, 8)
  else if id =? 29 then Some (AFp, 8)
  else if id =? 30 then Some (ALr, 8)
  else if id =? 31 then Some (ASp, 8)
  else if id =? 32 then Some (AElr, 8)
  else if id =? 33 then Some (AFpsr, 8)
  else if id =? 34 then Some (ASpsr, 4)
  else None.

(** ** An exception *)

Record axinfo := Axinfo { ai_type : xtype; ai_ip : N; ai_ctx : actx }.
(** aarch64.rs:85: BRK #0. *)
Definition BRK_0 : list N := [0x00; 0x00; 0x20; 0xD4].
(** The [n] bytes of memory [m] at [a]. *)
Fixpoint bytes_at (m : N -> N) (a : N) (n : nat) : list N := match n with O => [] | S n => m a :: bytes_at m (a + 1) n end.

(** aarch64.rs:98-124 with the constants 20-30; the state is MDSCR_EL1. *)
Definition a_process_entry (mdscr : N) (c : actx) : axinfo * N :=
  let ec := N.land (N.shiftr (a_esr c) 26) 0x3F in
  if (ec =? 0x32) || (ec =? 0x33) then (Axinfo Step (a_elr c) c, N.ldiff mdscr 0x1)
  else if (ec =? 0x30) || (ec =? 0x31) || (ec =? 0x34) || (ec =? 0x35) || (ec =? 0x3C) then (Axinfo Breakpoint (a_elr c) c, mdscr)
  else if (ec =? 0x20) || (ec =? 0x21) || (ec =? 0x24) || (ec =? 0x25) then (Axinfo (AccessViolation (a_far c)) (a_elr c) c, mdscr)
  else (Axinfo (Other ec) (a_elr c) c, mdscr).
(** aarch64.rs:126-144, without the caches. *)
Definition a_process_exit (dbg : bool) (m : N -> N) (i : axinfo) : res unit axinfo :=
  match ai_type i with
  | Breakpoint =>
      if list_eq_dec N.eq_dec (bytes_at m (a_elr (ai_ctx i)) 4) BRK_0
      then let* ip := uadd dbg (a_elr (ai_ctx i)) 4 in Ok (Axinfo (ai_type i) (ai_ip i) (with_elr (ai_ctx i) ip))
      else Ok i
  | _ => Ok i
  end.
(** aarch64.rs:146-157 with the constants 32-37. *)
Definition a_set_single_step (mdscr : N) (i : axinfo) : axinfo * N :=
  (Axinfo (ai_type i) (ai_ip i) (with_spsr (ai_ctx i) (N.lor (N.ldiff (a_spsr (ai_ctx i)) 0x200) 0x200000)),
   N.lor mdscr (N.lor 0x1 (N.lor 0x8000 0x2000))).

(** What happens in [enter_debugger] (debugger.rs:150-253): the user changes the context and continues or steps (dbg_target.rs:172-189), or the
    protocol fails, or the transport. *)
Inductive asession := AGo (f : actx -> actx) (step : bool) | AStubError | ATransportError.
(** debugger.rs:391-415; the memory [m] is the one at the resumption.  [None]: no return.  The result is the context and MDSCR_EL1. *)
Fixpoint a_session (dbg : bool) (m : N -> N) (mdscr : N) (c : actx) (l : list asession) : option (res unit (actx * N)) :=
  match l with
  | [] => None
  | s :: l =>
      let (i, mdscr) := a_process_entry mdscr c in
      match s with
      | AGo f step =>
          let i := Axinfo (ai_type i) (ai_ip i) (f (ai_ctx i)) in
          let (i, mdscr) := if step then a_set_single_step mdscr i else (i, mdscr) in
          Some (let* i := a_process_exit dbg m i in Ok (ai_ctx i, mdscr))
      | AStubError => a_session dbg m mdscr c l
      | ATransportError => None
      end
  end.
(** aarch64.rs:306-314: the marker is taken; the context. *)
Definition a_check_poke (dbg : bool) (marker : bool) (c : actx) : res unit (bool * actx) :=
  if marker then let* ip := uadd dbg (a_elr c) 4 in Ok (true, with_elr c ip) else Ok (false, c).
(** debugger.rs:365-416.  Result: context, MDSCR_EL1 and the marker. *)
Definition a_handle (dbg : bool) (m : N -> N) (marker : bool) (mdscr : N) (c : actx) (l : list asession) : option (res unit (actx * N * bool)) :=
  match a_check_poke dbg marker c with
  | Ok (true, c) => Some (Ok (c, mdscr, false))
  | Ok (false, c) => match a_session dbg m mdscr c l with Some (Ok (c, d)) => Some (Ok (c, d, false)) | Some (Err x) => Some (Err x) | Some Panic => Some Panic | None => None end
  | Err x => Some (Err x)
  | Panic => Some Panic
  end.
(** aarch64.rs:290-304: the load raises an exception with the context [c] or does not.  Result: whether the address can be read, the marker, and
    the context in which execution goes on. *)
Definition a_poke (dbg : bool) (m : N -> N) (mdscr : N) (fault : option actx) (l : list asession) : option (res unit (bool * bool * option actx)) :=
  let marker := true in
  match fault with
  | Some c =>
      match a_handle dbg m marker mdscr c l with
      | Some (Ok (c, _, marker)) => Some (Ok (marker, false, Some c))
      | Some (Err x) => Some (Err x)
      | Some Panic => Some Panic
      | None => None
      end
  | None => Some (Ok (marker, false, None))
  end.

(** ** Watchpoints *)

(** The registers DBGWVR<n>_EL1, DBGWCR<n>_EL1 for n = 0 to 3 in order, MDSCR_EL1, DAIF and OSLSR_EL1. *)
Record asys := Asys { s_w : list (N * N); s_mdscr : N; s_daif : N; s_oslsr : N }.

(** aarch64.rs:497-519: the field of [width] bits at [pos], as the bitfield macro makes it. *)
Definition get_field (v pos width : N) : N := N.land (N.shiftr v pos) (N.ones width).
Definition set_field (v pos width x : N) : N := N.lor (N.ldiff v (N.shiftl (N.ones width) pos)) (N.shiftl (N.land x (N.ones width)) pos).
Definition wcr_enable (v : N) : bool := get_field v 0 1 =? 1.
Definition wcr_lsc (v : N) : N := get_field v 3 2.
Definition wcr_bas (v : N) : N := get_field v 5 8.

(** aarch64.rs:522-526. *)
Definition calculate_bas (length : N) : N := N.shiftr 0xFF (8 - N.min 8 length) mod 256.
(** aarch64.rs:528-534. *)
Definition calculate_lsc (k : watch) : N := match k with WWrite => 2 | WRead => 1 | WReadWrite => 3 end.

(** The processor: bits 0 and 1 of DBGWVR<n>_EL1 are reserved (RES0).  Whether they read back as written is up to the implementation: [keep]. *)
Definition wvr_written (keep : bool) (address : N) : N := if keep then address else address - address mod 4.

(** aarch64.rs:194, 228. *)
Definition same_watch (address bas lsc : N) (w : N * N) : bool :=
  wcr_enable (snd w) && (wcr_bas (snd w) =? bas) && (wcr_lsc (snd w) =? lsc) && (fst w =? address).
(** aarch64.rs:200-219: the first slot that is not in use. *)
Fixpoint fill_first (w : N * N) (l : list (N * N)) : bool * list (N * N) :=
  match l with
  | [] => (false, [])
  | x :: l => if negb (wcr_enable (snd x)) then (true, w :: l) else let (b, l) := fill_first w l in (b, x :: l)
  end.
(** aarch64.rs:187-220. *)
Definition a_add_watchpoint (keep : bool) (l : list (N * N)) (address length : N) (k : watch) : bool * list (N * N) :=
  let bas := calculate_bas length in
  let lsc := calculate_lsc k in
  if existsb (same_watch address bas lsc) l then (true, l)
  else
    let wcr := set_field 0 0 1 1 in
    let wcr := set_field wcr 5 8 bas in
    let wcr := set_field wcr 3 2 lsc in
    let wcr := set_field wcr 13 1 1 in
    let wcr := set_field wcr 14 2 1 in
    let wcr := set_field wcr 1 2 3 in
    fill_first (wvr_written keep address, wcr) l.
(** aarch64.rs:222-235. *)
Fixpoint a_remove (address bas lsc : N) (l : list (N * N)) : bool * list (N * N) :=
  match l with
  | [] => (false, [])
  | x :: l => if same_watch address bas lsc x then (true, (fst x, 0) :: l) else let (b, l) := a_remove address bas lsc l in (b, x :: l)
  end.
Definition a_remove_watchpoint (l : list (N * N)) (address length : N) (k : watch) : bool * list (N * N) :=
  a_remove address (calculate_bas length) (calculate_lsc k) l.

(** aarch64.rs:159-185.  Writing zero to OSLAR_EL1 (168) clears the lock, which is bit 1 of OSLSR_EL1. *)
Definition a_initialize (s : asys) : asys :=
  let daif := N.lor (s_daif s) 0x200 in
  let oslsr := if negb (N.land (s_oslsr s) 1 =? 0) then N.ldiff (s_oslsr s) 2 else s_oslsr s in
  let mdscr := N.lor (s_mdscr s) (N.lor 0x8000 0x2000) in
  Asys (map (fun w => (fst w, 0)) (s_w s)) mdscr (N.ldiff daif 0x200) oslsr.
