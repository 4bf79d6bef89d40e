(** What a person who debugs expects of registers, resumption and watchpoints. *)
From Verif Require Import Base.Prelude Base.Bytes Debugger.ArchModel.
Local Open Scope N_scope.

(** The registers in the order of the description sent to the client (arch/xml/x64_registers.xml); it gives each of them 64 bits. *)
Definition described (c : ctx) : list N :=
  [rax c; rbx c; rcx c; rdx c; rsi c; rdi c; rbp c; rsp c; r8 c; r9 c; r10 c; r11 c; r12 c; r13 c; r14 c; r15 c; rip c; rflags c;
   cs c; ss c; ds c; es c; fs c; gs c; cr0 c; cr2 c; cr3 c; cr4 c].
(** So the client takes the register with number [i] from eight bytes at [8 i]. *)
Definition shown (bytes : list N) (i : nat) : N := le_at bytes (8 * i) 8.

(** Registers have 64 bits, segment selectors at most 32. *)
Definition ctx_ok (c : ctx) : Prop :=
  Forall (fun v => v < two64) (described c) /\ cs c < two32 /\ ss c < two32 /\ ds c < two32 /\ es c < two32 /\ fs c < two32 /\ gs c < two32.

(** The processor's view of DR7 (Intel SDM, volume 3, Debug Control Register): which slots are on, the kind of access and the length. *)
Definition field (d7 s : N) : N := (d7 / 2 ^ s) mod 4.
Definition sdm_len (f : N) : N := if f =? 0 then 1 else if f =? 1 then 2 else if f =? 2 then 8 else 4.
(** A slot: address, length field, access field. *)
Definition slot (d : dregs) (i : nat) : option (N * N * N) :=
  if N.testbit (d_7 d) (2 * N.of_nat i) then Some (nth i (d_addr d) 0, field (d_7 d) (18 + 4 * N.of_nat i), field (d_7 d) (16 + 4 * N.of_nat i)) else None.
Definition watched (d : dregs) : list (option (N * N * N)) := [slot d 0; slot d 1; slot d 2; slot d 3].
(** The bytes the processor watches for a slot: the address is aligned to the length. *)
Definition covers (w : N * N * N) (x : N) : Prop :=
  let '(a, l, _) := w in let n := sdm_len l in a - a mod n <= x /\ x < a - a mod n + n.
(** Access field: 1 is writes, 3 is reads and writes. *)

(** A table of four slots. *)
Inductive wop := AddW (a len : N) (k : watch) | RemoveW (a len : N) (k : watch).
Definition len_field (n : N) : N := if n =? 1 then 0 else if n =? 2 then 1 else if n =? 4 then 2 else 3.
Definition rw_field (k : watch) : N := match k with WWrite => 1 | _ => 3 end.
Definition has (a : N) (s : option (N * N * N)) : bool := match s with Some (b, _, _) => b =? a | None => false end.
Fixpoint into_free (v : N * N * N) (t : list (option (N * N * N))) : option (list (option (N * N * N))) :=
  match t with
  | [] => None
  | None :: r => Some (Some v :: r)
  | x :: r => match into_free v r with Some r => Some (x :: r) | None => None end
  end.
Fixpoint drop_first (a : N) (t : list (option (N * N * N))) : list (option (N * N * N)) :=
  match t with [] => [] | x :: r => if has a x then None :: r else x :: drop_first a r end.
Definition step_w (t : list (option (N * N * N))) (o : wop) : bool * list (option (N * N * N)) :=
  match o with
  | AddW a len k => if existsb (has a) t then (true, t) else match into_free (a, len_field len, rw_field k) t with Some t => (true, t) | None => (false, t) end
  | RemoveW a _ _ => (existsb (has a) t, drop_first a t)
  end.
Fixpoint table_w (t : list (option (N * N * N))) (ops : list wop) : list bool * list (option (N * N * N)) :=
  match ops with [] => ([], t) | o :: ops => let (b, t) := step_w t o in let (bs, t) := table_w t ops in (b :: bs, t) end.

Fixpoint run_w (d : dregs) (ops : list wop) : list bool * dregs :=
  match ops with
  | [] => ([], d)
  | o :: ops =>
      let (b, d) := match o with AddW a len k => add_watchpoint d a len k | RemoveW a len k => remove_watchpoint d a len k end in
      let (bs, d) := run_w d ops in (b :: bs, d)
  end.
(** The bits of DR7 that are not the local enables and the fields of the four slots. *)
Definition foreign (j : N) : Prop := (j < 8 /\ j mod 2 = 1) \/ (8 <= j /\ j < 16) \/ 32 <= j.
