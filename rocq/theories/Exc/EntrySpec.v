(** What an exception must look like, on x86-64. *)
From Verif Require Import Base.Prelude Exc.EntryModel.
Local Open Scope N_scope.

(** The exceptions that push an error code (Intel SDM volume 3, table 6-1; AMD for 29 and 30). *)
Definition with_error_code (v : N) : Prop := In v [8; 10; 11; 12; 13; 14; 17; 21; 29; 30].

(** The processor delivers an interrupt: it aligns the stack and pushes SS, RSP, RFLAGS, CS, RIP, and the error code if there is one.
    Registers are as the program had them. *)
Definition deliver (p : prog) (code : option N) : mach :=
  Mach (fun r => Word (p_reg p r)) (p_sys p) (p_idtr p) (p_gdtr p) (p_fx p)
    ((match code with Some e => [Word e] | None => [] end) ++ [Word (p_rip p); Word (p_cs p); Word (p_flags p); Word (p_rsp p); Word (p_ss p)]) false.
(** The error code goes with the vector. *)
Definition code_ok (v : N) (code : option N) : Prop := code <> None <-> with_error_code v.

(** The values of a program: selectors have 16 bits, the floating-point state 512 bytes. *)
Definition prog_ok (p : prog) : Prop := p_cs p < two16 /\ p_ss p < two16 /\ length (p_fx p) = 64%nat.

(** EFI_SYSTEM_CONTEXT_X64 of the UEFI specification, 18.2.1: what a handler is given, word by word.  [g] and [i] are bits of GDTR and IDTR that have no meaning. *)
Definition context (p : prog) (code g i : N) : list N :=
  code :: p_fx p
  ++ [p_sys p DR0; p_sys p DR1; p_sys p DR2; p_sys p DR3; p_sys p DR6; p_sys p DR7;
      p_sys p CR0; 0; p_sys p CR2; p_sys p CR3; p_sys p CR4; p_sys p CR8;
      p_flags p; p_sys p LDTR; p_sys p TR;
      t_lo (p_gdtr p); t_hi (p_gdtr p) + two16 * g; t_lo (p_idtr p); t_hi (p_idtr p) + two16 * i;
      p_rip p; p_sys p GS; p_sys p FS; p_sys p ES; p_sys p DS; p_cs p; p_ss p;
      p_reg p RDI; p_reg p RSI; p_reg p RBP; p_rsp p; p_reg p RBX; p_reg p RDX; p_reg p RCX; p_reg p RAX;
      p_reg p R8; p_reg p R9; p_reg p R10; p_reg p R11; p_reg p R12; p_reg p R13; p_reg p R14; p_reg p R15].

(** CR4 as the exception leaves it: OSFXSR and DE set. *)
Definition fx_enabled (p : prog) : prog :=
  Prog (p_reg p) (p_rip p) (p_cs p) (p_flags p) (p_rsp p) (p_ss p) (fun s => match s with CR4 => N.lor (p_sys p CR4) 0x208 | _ => p_sys p s end) (p_idtr p) (p_gdtr p) (p_fx p).

(** Two programs are in the same state, but for the system registers [except]. *)
Definition same_prog (except : sys -> Prop) (p q : prog) : Prop :=
  (forall r, p_reg p r = p_reg q r) /\ p_rip p = p_rip q /\ p_cs p = p_cs q /\ p_flags p = p_flags q /\ p_rsp p = p_rsp q /\ p_ss p = p_ss q
  /\ (forall s, ~ except s -> p_sys p s = p_sys q s) /\ p_fx p = p_fx q.
(** The registers that are not taken from the context. *)
Definition kept (s : sys) : Prop := match s with CR0 | CR2 | CR3 | CR4 | CR8 => False | _ => True end.
