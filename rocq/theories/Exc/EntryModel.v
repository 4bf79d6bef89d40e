(** The entry and exit code for exceptions on x86-64, core/patina_internal_cpu/src/interrupts/x64/interrupt_handler.asm, line by line, over a small machine;
    and the interrupt descriptor table, x64/interrupt_manager.rs:35-72.
    The memory at and above the stack pointer is a list of 64-bit words, the one at the stack pointer first.  An address in it is given by the number of words at and
    above it.  What is below the stack pointer is arbitrary ([junk]).  Of the flags only the zero flag is followed, and it is only set by [and]. *)
From Verif Require Import Base.Prelude.
Local Open Scope N_scope.

Inductive reg := RAX | RBX | RCX | RDX | RSI | RDI | RBP | R8 | R9 | R10 | R11 | R12 | R13 | R14 | R15.
Inductive sys := DS | ES | FS | GS | CR0 | CR2 | CR3 | CR4 | CR8 | DR0 | DR1 | DR2 | DR3 | DR6 | DR7 | TR | LDTR.
Definition reg_eqb (a b : reg) : bool :=
  match a, b with
  | RAX, RAX | RBX, RBX | RCX, RCX | RDX, RDX | RSI, RSI | RDI, RDI | RBP, RBP | R8, R8 | R9, R9 | R10, R10 | R11, R11 | R12, R12 | R13, R13 | R14, R14 | R15, R15 => true
  | _, _ => false
  end.
Definition sys_eqb (a b : sys) : bool :=
  match a, b with
  | DS, DS | ES, ES | FS, FS | GS, GS | CR0, CR0 | CR2, CR2 | CR3, CR3 | CR4, CR4 | CR8, CR8 | DR0, DR0 | DR1, DR1 | DR2, DR2 | DR3, DR3 | DR6, DR6 | DR7, DR7
  | TR, TR | LDTR, LDTR => true
  | _, _ => false
  end.

(** A word, or an address on the stack. *)
Inductive val := Word (n : N) | Ptr (depth : nat).
Definition word_of (v : val) : N := match v with Word n => n | Ptr _ => 0 end.

(** A table register: the limit with 48 bits of the base, and the remaining 16 bits. *)
Record tabreg := Tab { t_lo : N; t_hi : N }.
Record mach := Mach { m_reg : reg -> val; m_sys : sys -> N; m_idtr : tabreg; m_gdtr : tabreg; m_fx : list N; m_stack : list val; m_zf : bool }.
Definition set_reg (m : mach) (r : reg) (v : val) : mach :=
  Mach (fun x => if reg_eqb x r then v else m_reg m x) (m_sys m) (m_idtr m) (m_gdtr m) (m_fx m) (m_stack m) (m_zf m).
Definition set_sys (m : mach) (s : sys) (n : N) : mach :=
  Mach (m_reg m) (fun x => if sys_eqb x s then n else m_sys m x) (m_idtr m) (m_gdtr m) (m_fx m) (m_stack m) (m_zf m).
Definition set_stack (m : mach) (l : list val) : mach := Mach (m_reg m) (m_sys m) (m_idtr m) (m_gdtr m) (m_fx m) l (m_zf m).
Definition set_fx (m : mach) (l : list N) : mach := Mach (m_reg m) (m_sys m) (m_idtr m) (m_gdtr m) l (m_stack m) (m_zf m).
Definition set_zf (m : mach) (b : bool) : mach := Mach (m_reg m) (m_sys m) (m_idtr m) (m_gdtr m) (m_fx m) (m_stack m) b.

Fixpoint put {A} (i : nat) (v : A) (l : list A) : list A :=
  match l, i with [], _ => [] | _ :: r, O => v :: r | x :: r, S i => x :: put i v r end.

(** The instructions used; displacements are in words.  [FromM], [ToM]: relative to R15. *)
Inductive instr :=
| Alloc (k : nat) (* sub rsp, 8 * k *)
| Free (k : nat) (* add rsp, 8 * k *)
| StoreTop (k : nat) (n : N) (* mov qword ptr [rsp + 8 * k], n *)
| Push (r : reg) | PushImm (n : N) | PushTop (* push qword ptr [rsp] *)
| PushM (d : nat) (* push qword ptr [r15 + 8 * d] *)
| Pop (r : reg)
| PopM (d : nat) (* pop qword ptr [r15 + 8 * d] *)
| XchgTop (r : reg) (k : nat) (* xchg r, qword ptr [rsp + 8 * k] *)
| MovImm (r : reg) (n : N)
| ShlCl (* shl rax, cl *)
| AndImm (n : N) (* and rax, n *)
| OrImm (n : N) (* or rax, n *)
| JnzSkip (k : nat) (* jnz over the next k instructions *)
| MovRsp (r : reg) (* mov r, rsp *)
| AddPtr (r : reg) (k : nat) (* add r, 8 * k *)
| LoadM (r : reg) (d : nat) (* mov r, qword ptr [r15 + 8 * d] *)
| Load16 (d : nat) (* movzx rax, word ptr [r15 + 8 * d] *)
| ReadSys (s : sys) (* mov rax, s; str; sldt *)
| WriteSys (s : sys) (* mov s, rax *)
| Sidt | Sgdt (* sidt [rsp], sgdt [rsp] *)
| Fxsave (r : reg) | Fxrstor (r : reg)
| Call (* call exception_handler *)
| Iretq.

(** What [exception_handler] does: it is given the vector and the context, and it leaves a context and its own values in the volatile registers.  The others it
    preserves, as the calling convention has it. *)
Definition handler := N -> list N -> list N * (reg -> N).
Definition volatile (r : reg) : bool := match r with RAX | RCX | RDX | R8 | R9 | R10 | R11 => true | _ => false end.
(** The words of the context, 1 + 64 + 42 (EFI_SYSTEM_CONTEXT_X64). *)
Definition CONTEXT : nat := 107.

(** A fault; or the end, with the program that goes on; or the next state.  [Ok]: with the number of instructions to skip and the calls made. *)
Inductive stop := Fault (* of alignment, or outside the stack *) .
Definition at_ptr (m : mach) (p : val) (d : nat) : option nat :=
  match p with
  | Ptr n => if (d <? n)%nat && (n <=? length (m_stack m))%nat then Some (length (m_stack m) - n + d)%nat else None
  | Word _ => None
  end.
Definition load (m : mach) (p : val) (d : nat) : res stop val :=
  match at_ptr m p d with Some i => Ok (nth i (m_stack m) (Word 0)) | None => Err Fault end.
Definition store (m : mach) (p : val) (d : nat) (v : val) : res stop mach :=
  match at_ptr m p d with Some i => Ok (set_stack m (put i v (m_stack m))) | None => Err Fault end.
Definition aligned (p : val) : bool := match p with Ptr n => Nat.even n | Word _ => false end.

(** A program that runs: its registers, with those that an interrupt saves. *)
Record prog := Prog { p_reg : reg -> N; p_rip : N; p_cs : N; p_flags : N; p_rsp : N; p_ss : N; p_sys : sys -> N; p_idtr : tabreg; p_gdtr : tabreg; p_fx : list N }.

Section Run.
Context (h : handler) (junk : nat -> N).
Definition alloc (m : mach) (k : nat) : mach := set_stack m (map (fun i => Word (junk (length (m_stack m) + i)%nat)) (rev (seq 0 k)) ++ m_stack m).
Definition push (m : mach) (v : val) : mach := set_stack m (v :: m_stack m).
(** One instruction: the new state, the instructions to skip, and the call made. *)
Definition step (i : instr) (m : mach) : res stop (mach * nat * list (N * list N)) :=
  let next m := Ok (m, O, []) in
  match i with
  | Alloc k => next (alloc m k)
  | Free k => if (k <=? length (m_stack m))%nat then next (set_stack m (skipn k (m_stack m))) else Err Fault
  | StoreTop k n => let* m := store m (Ptr (length (m_stack m))) k (Word n) in next m
  | Push r => next (push m (m_reg m r))
  | PushImm n => next (push m (Word n))
  | PushTop => let* v := load m (Ptr (length (m_stack m))) 0 in next (push m v)
  | PushM d => let* v := load m (m_reg m R15) d in next (push m v)
  | Pop r => match m_stack m with v :: l => next (set_reg (set_stack m l) r v) | [] => Err Fault end
  | PopM d => match m_stack m with v :: l => let* m := store (set_stack m l) (m_reg m R15) d v in next m | [] => Err Fault end
  | XchgTop r k =>
      let p := Ptr (length (m_stack m)) in
      let* v := load m p k in let* m' := store m p k (m_reg m r) in next (set_reg m' r v)
  | MovImm r n => next (set_reg m r (Word n))
  | ShlCl => next (set_reg m RAX (Word (N.shiftl (word_of (m_reg m RAX)) (word_of (m_reg m RCX) mod 64) mod two64)))
  | AndImm n => let v := N.land (word_of (m_reg m RAX)) n in next (set_zf (set_reg m RAX (Word v)) (v =? 0))
  | OrImm n => next (set_reg m RAX (Word (N.lor (word_of (m_reg m RAX)) n)))
  | JnzSkip k => Ok (m, if m_zf m then O else k, [])
  | MovRsp r => next (set_reg m r (Ptr (length (m_stack m))))
  | AddPtr r k => match m_reg m r with Ptr n => if (k <=? n)%nat then next (set_reg m r (Ptr (n - k))) else Err Fault | Word _ => Err Fault end
  | LoadM r d => let* v := load m (m_reg m R15) d in next (set_reg m r v)
  | Load16 d => let* v := load m (m_reg m R15) d in next (set_reg m RAX (Word (word_of v mod two16)))
  | ReadSys s => next (set_reg m RAX (Word (m_sys m s)))
  | WriteSys s => next (set_sys m s (word_of (m_reg m RAX)))
  | Sidt | Sgdt =>
      (* ten bytes: the upper six of the second word stay *)
      let t := match i with Sidt => m_idtr m | _ => m_gdtr m end in
      let p := Ptr (length (m_stack m)) in
      let* old := load m p 1 in
      let* m := store m p 0 (Word (t_lo t)) in
      let* m := store m p 1 (Word (t_hi t + two16 * (word_of old / two16))) in next m
  | Fxsave r =>
      match m_reg m r with
      | Ptr n => if aligned (Ptr n) && (n =? length (m_stack m))%nat && (64 <=? n)%nat then next (set_stack m (map Word (m_fx m) ++ skipn 64 (m_stack m))) else Err Fault
      | Word _ => Err Fault
      end
  | Fxrstor r =>
      match m_reg m r with
      | Ptr n => if aligned (Ptr n) && (n =? length (m_stack m))%nat && (64 <=? n)%nat then next (set_fx m (map word_of (firstn 64 (m_stack m)))) else Err Fault
      | Word _ => Err Fault
      end
  | Call =>
      match m_reg m RDX with
      | Ptr n =>
          let i := (length (m_stack m) - n)%nat in
          let ctx := map word_of (firstn CONTEXT (skipn i (m_stack m))) in
          let v := word_of (m_reg m RCX) in
          let (ctx', vol) := h v ctx in
          let l := firstn i (m_stack m) ++ map Word ctx' ++ skipn (i + CONTEXT) (m_stack m) in
          Ok (Mach (fun r => if volatile r then Word (vol r) else m_reg m r) (m_sys m) (m_idtr m) (m_gdtr m) (m_fx m) l (m_zf m), O, [(v, ctx)])
      | Word _ => Err Fault
      end
  | Iretq => Err Fault
  end.
(** The instructions after the first [skip]; [iretq] at the end gives the program that goes on; 16 bits of the selectors are loaded. *)
Fixpoint run (code : list instr) (skip : nat) (m : mach) : res stop (prog * list (N * list N)) :=
  match code with
  | [] => Err Fault
  | i :: code =>
      match skip with
      | S k => run code k m
      | O =>
          match i with
          | Iretq =>
              match m_stack m with
              | rip :: cs :: fl :: sp :: ss :: _ =>
                  Ok (Prog (fun r => word_of (m_reg m r)) (word_of rip) (word_of cs mod two16) (word_of fl) (word_of sp) (word_of ss mod two16)
                        (m_sys m) (m_idtr m) (m_gdtr m) (m_fx m), [])
              | _ => Err Fault
              end
          | _ =>
              match step i m with
              | Ok (m, k, calls) => match run code k m with Ok (p, calls') => Ok (p, calls ++ calls') | r => r end
              | Err x => Err x
              | Panic => Panic
              end
          end
      end
  end.
End Run.

(** interrupt_handler.asm:19-29: the stub of a vector; then common_interrupt_entry to stack_normalized, 34-62. *)
Definition stub (vector : N) : list instr := [Alloc 1; StoreTop 0 vector; Push RAX].
Definition VECTORS_WITH_ERROR_CODES : N := 0x60227D00.
Definition normalize : list instr :=
  [XchgTop RCX 1; MovImm RAX 1; ShlCl; AndImm VECTORS_WITH_ERROR_CODES; Pop RAX; XchgTop RCX 0; JnzSkip 2; PushTop; StoreTop 1 0].
(** 64 and 104-191. *)
Definition save : list instr :=
  [PushImm 0; Push R15; MovRsp R15; AddPtr R15 2;
   Push R14; Push R13; Push R12; Push R11; Push R10; Push R9; Push R8; Push RAX; Push RCX; Push RDX; Push RBX; PushM 5; Push RBP; Push RSI; Push RDI;
   Load16 6; Push RAX; Load16 3; Push RAX; ReadSys DS; Push RAX; ReadSys ES; Push RAX; ReadSys FS; Push RAX; ReadSys GS; Push RAX;
   PushM 2; Alloc 2; Sidt; Alloc 2; Sgdt; ReadSys TR; Push RAX; ReadSys LDTR; Push RAX; PushM 4;
   ReadSys CR8; Push RAX; ReadSys CR4; OrImm 0x208; WriteSys CR4; Push RAX; ReadSys CR3; Push RAX; ReadSys CR2; Push RAX; MovImm RAX 0; Push RAX; ReadSys CR0; Push RAX;
   ReadSys DR7; Push RAX; ReadSys DR6; Push RAX; ReadSys DR3; Push RAX; ReadSys DR2; Push RAX; ReadSys DR1; Push RAX; ReadSys DR0; Push RAX;
   Alloc 64; MovRsp RAX; Fxsave RAX; PushM 1].
(** 193-205. *)
Definition call_handler : list instr := [LoadM RCX 0; MovRsp RDX; Alloc 5; Call; Free 5].
(** 214-285; LDTR, TR, GDTR and IDTR are skipped. *)
Definition restore : list instr :=
  [Free 1; MovRsp RSI; Fxrstor RSI; Free 64; Free 6;
   Pop RAX; WriteSys CR0; Free 1; Pop RAX; WriteSys CR2; Pop RAX; WriteSys CR3; Pop RAX; WriteSys CR4; Pop RAX; WriteSys CR8;
   PopM 4; Free 6; PopM 2; Pop RAX; Pop RAX; Pop RAX; Pop RAX; PopM 3; PopM 6;
   Pop RDI; Pop RSI; Pop RBP; PopM 5; Pop RBX; Pop RDX; Pop RCX; Pop RAX; Pop R8; Pop R9; Pop R10; Pop R11; Pop R12; Pop R13; Pop R14; Pop R15; Free 3; Iretq].
Definition entry (vector : N) : list instr := stub vector ++ normalize ++ save ++ call_handler ++ restore.

(** interrupt_manager.rs:35-72: the stub that a vector's gate points to.  The field [cp_protection_exception] of the x86_64 crate is vector 21, and it is given the
    address of stub 19 (60).  [Some None]: the double fault, with a handler of its own. *)
Definition gate (v : N) : option (option N) :=
  if existsb (N.eqb v) [0; 1; 2; 3; 4; 5; 6; 7; 9; 16; 19; 20; 28] then Some (Some v)
  else if v =? 8 then Some None
  else if existsb (N.eqb v) [10; 11; 12; 13; 14; 17; 29; 30] then Some (Some v)
  else if v =? 21 then Some (Some 19)
  else if (32 <=? v) && (v <=? 255) then Some (Some v)
  else None.
