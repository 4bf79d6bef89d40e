(** What a person who debugs an AArch64 system expects of registers, resumption, steps and watchpoints. *)
From Verif Require Import Base.Prelude Base.Bytes Debugger.ArchModel Debugger.ArmModel.
Local Open Scope N_scope.

(** ** Registers *)

(** The registers of 64 bits in the order of the description sent to the client (arch/xml/aarch64_registers.xml).  The last is described as fpcr. *)
Definition a_described (c : actx) : list N := a_x c ++ [a_fp c; a_lr c; a_sp c; a_elr c; a_fpsr c].
(** The client takes the register with number [i] from eight bytes at [8 i], and cpsr, number 34, from four bytes behind them. *)
Definition a_shown (bytes : list N) (i : nat) : N := le_at bytes (8 * i) 8.
Definition a_shown_cpsr (bytes : list N) : N := le_at bytes 272 4.
Definition actx_ok (c : actx) : Prop := length (a_x c) = 29%nat /\ Forall (fun v => v < two64) (a_described c) /\ a_spsr c < two64.

(** ** Resumption *)

(** The exception class of the syndrome (Arm ARM, ESR_EL2): bits 26 to 31. *)
Definition class (c : actx) : N := (a_esr c / 2 ^ 26) mod 64.
(** Why the program stopped. *)
Definition is_step (ec : N) : bool := (ec =? 50) || (ec =? 51).
Definition is_break (ec : N) : bool := existsb (N.eqb ec) [48; 49; 52; 53; 60].
Definition is_abort (ec : N) : bool := existsb (N.eqb ec) [32; 33; 36; 37].
(** The instruction BRK #0 at [a]: the word 0xD4200000. *)
Definition brk_at (m : N -> N) (a : N) : Prop := m a = 0 /\ m (a + 1) = 0 /\ m (a + 2) = 0x20 /\ m (a + 3) = 0xD4.

(** A history of stops: the class of each, and whether the user then steps. *)
Fixpoint stops (dbg : bool) (mdscr : N) (l : list (actx * (N -> N) * list asession)) : option N :=
  match l with
  | [] => Some mdscr
  | (c, m, ss) :: l => match a_session dbg m mdscr c ss with Some (Ok (_, d)) => stops dbg d l | _ => None end
  end.
(** The answer of the user, which ends a session. *)
Fixpoint answer (ss : list asession) : option bool :=
  match ss with [] => None | AGo _ b :: _ => Some b | AStubError :: ss => answer ss | ATransportError :: _ => None end.
(** Is the processor in step mode behind such a history?  A step turns it on, and only the stop for a step turns it off. *)
Fixpoint in_step_mode (b : bool) (l : list (actx * (N -> N) * list asession)) : bool :=
  match l with
  | [] => b
  | (c, _, ss) :: l => in_step_mode (match answer ss with Some true => true | _ => b && negb (is_step (class c)) end) l
  end.

(** ** Watchpoints *)

(** The processor's view (Arm ARM, DBGWCR<n>_EL1 and DBGWVR<n>_EL1): enable, byte address select, load/store control. *)
Definition hw_slot (w : N * N) : option (N * N * N) :=
  if N.testbit (snd w) 0 then Some (fst w, (snd w / 32) mod 256, (snd w / 8) mod 4) else None.
(** The bytes it watches: bits 0 and 1 of the address are ignored; with bit 2 set only four bits of the byte address select count. *)
Definition hw_covers (w : N * N * N) (x : N) : Prop :=
  let '(a, bas, _) := w in
  exists i, i < (if N.testbit a 2 then 4 else 8) /\ N.testbit bas i = true /\ x = 4 * (a / 4) + i.
(** Load/store control: bit 0 is loads, bit 1 stores. *)
Definition hw_loads (w : N * N * N) : bool := N.testbit (snd w) 0.
Definition hw_stores (w : N * N * N) : bool := N.testbit (snd w) 1.
Definition loads (k : watch) : bool := match k with WWrite => false | _ => true end.
Definition stores (k : watch) : bool := match k with WRead => false | _ => true end.

(** A table of four slots: address, number of bytes (at most eight), kind. *)
Inductive aop := AAdd (a len : N) (k : watch) | ARemove (a len : N) (k : watch).
Definition entry : Type := N * N * watch.
Definition watch_eqb (k k' : watch) : bool := match k, k' with WRead, WRead | WWrite, WWrite | WReadWrite, WReadWrite => true | _, _ => false end.
Definition entry_eqb (e e' : entry) : bool :=
  let '(a, n, k) := e in let '(a', n', k') := e' in (a =? a') && (n =? n') && watch_eqb k k'.
Definition holds (e : entry) (s : option entry) : bool := match s with Some e' => entry_eqb e e' | None => false end.
Fixpoint into_free_a (e : entry) (t : list (option entry)) : bool * list (option entry) :=
  match t with
  | [] => (false, [])
  | None :: t => (true, Some e :: t)
  | x :: t => let (b, t) := into_free_a e t in (b, x :: t)
  end.
Fixpoint drop_first_a (e : entry) (t : list (option entry)) : list (option entry) :=
  match t with [] => [] | x :: t => if holds e x then None :: t else x :: drop_first_a e t end.
Definition step_a (t : list (option entry)) (o : aop) : bool * list (option entry) :=
  match o with
  | AAdd a len k => let e := (a, N.min 8 len, k) in if existsb (holds e) t then (true, t) else into_free_a e t
  | ARemove a len k => let e := (a, N.min 8 len, k) in (existsb (holds e) t, drop_first_a e t)
  end.
Fixpoint table_a (t : list (option entry)) (ops : list aop) : list bool * list (option entry) :=
  match ops with [] => ([], t) | o :: ops => let (b, t) := step_a t o in let (bs, t) := table_a t ops in (b :: bs, t) end.

(** What the registers hold for an entry: one bit per byte, and one for loads and one for stores. *)
Definition as_fields (e : entry) : N * N * N :=
  let '(a, n, k) := e in (a, 2 ^ n - 1, (if loads k then 1 else 0) + (if stores k then 2 else 0)).

Fixpoint run_a (keep : bool) (l : list (N * N)) (ops : list aop) : list bool * list (N * N) :=
  match ops with
  | [] => ([], l)
  | o :: ops =>
      let (b, l) := match o with AAdd a len k => a_add_watchpoint keep l a len k | ARemove a len k => a_remove_watchpoint l a len k end in
      let (bs, l) := run_a keep l ops in (b :: bs, l)
  end.
Definition aop_addr (o : aop) : N := match o with AAdd a _ _ | ARemove a _ _ => a end.
(** A slot in use takes effect at EL0, EL1 and EL2 of the normal world (Arm ARM, table D2-13: HMC 1, SSC 01, PAC 11), with no mask and no link. *)
Definition all_levels (wcr : N) : Prop := wcr / 2 ^ 13 = 1 + 2 * 1 /\ (wcr / 2) mod 4 = 3.
(** The OS lock (OSLSR_EL1): bit 1; bit 0, half of the field that names the lock model, is 0. *)
Definition os_locked (oslsr : N) : bool := N.testbit oslsr 1.
