(** What a stack trace must show on AArch64: the unwind codes, the unwind words and the frames as the ARM64 exception handling conventions have them. *)
From Verif Require Import Base.Prelude Base.Bytes Mm.Model Mm.Spec Trace.Model Trace.Spec.
Local Open Scope N_scope.

(** ** Prologs

    Instructions of a prolog, by their unwind codes. *)
Inductive code :=
| AllocS (x : N)          (* sub sp, sp, 16 * x *)
| SaveR19R20X (z : N)     (* stp x19, x20, [sp, - 8 * z]! *)
| SaveFpLr (z : N)        (* stp fp, lr, [sp, 8 * z] *)
| SaveFpLrX (z : N)       (* stp fp, lr, [sp, - 8 * (z + 1)]! *)
| AllocM (x : N)          (* sub sp, sp, 16 * x *)
| SaveRegP (x z : N)      (* stp x(19+x), x(20+x), [sp, 8 * z] *)
| SaveRegPX (x z : N)     (* stp x(19+x), x(20+x), [sp, - 8 * (z + 1)]! *)
| SaveReg (x z : N)       (* str x(19+x), [sp, 8 * z] *)
| SaveRegX (x z : N)      (* str x(19+x), [sp, - 8 * (z + 1)]! *)
| SaveLrPair (x z : N)    (* stp x(19+2*x), lr, [sp, 8 * z] *)
| SaveFRegP (x z : N)     (* stp d(8+x), d(9+x), [sp, 8 * z] *)
| SaveFRegPX (x z : N)    (* stp d(8+x), d(9+x), [sp, - 8 * (z + 1)]! *)
| SaveFReg (x z : N)      (* str d(8+x), [sp, 8 * z] *)
| SaveFRegX (x z : N)     (* str d(8+x), [sp, - 8 * (z + 1)]! *)
| AllocL (x : N)          (* sub sp, sp, 16 * x *)
| SetFp                   (* mov fp, sp *)
| AddFp (x : N)           (* add fp, sp, 8 * x *)
| Nop
| PacSignLr.              (* pacibsp *)

Definition code_ok (c : code) : Prop :=
  match c with
  | AllocS x => x < 32 | SaveR19R20X z => z < 32 | SaveFpLr z | SaveFpLrX z => z < 64 | AllocM x => x < 2048
  | SaveRegP x z | SaveRegPX x z | SaveReg x z => x < 16 /\ z < 64
  | SaveRegX x z => x < 16 /\ z < 32
  | SaveLrPair x z | SaveFRegP x z | SaveFRegPX x z | SaveFReg x z => x < 8 /\ z < 64
  | SaveFRegX x z => x < 8 /\ z < 32
  | AllocL x => x < 2 ^ 24 | AddFp x => x < 256
  | SetFp | Nop | PacSignLr => True
  end.

Definition code_bytes (c : code) : list N :=
  match c with
  | AllocS x => [x]
  | SaveR19R20X z => [0x20 + z]
  | SaveFpLr z => [0x40 + z]
  | SaveFpLrX z => [0x80 + z]
  | AllocM x => [0xC0 + x / 256; x mod 256]
  | SaveRegP x z => [0xC8 + x / 4; 64 * (x mod 4) + z]
  | SaveRegPX x z => [0xCC + x / 4; 64 * (x mod 4) + z]
  | SaveReg x z => [0xD0 + x / 4; 64 * (x mod 4) + z]
  | SaveRegX x z => [0xD4 + x / 8; 32 * (x mod 8) + z]
  | SaveLrPair x z => [0xD6 + x / 4; 64 * (x mod 4) + z]
  | SaveFRegP x z => [0xD8 + x / 4; 64 * (x mod 4) + z]
  | SaveFRegPX x z => [0xDA + x / 4; 64 * (x mod 4) + z]
  | SaveFReg x z => [0xDC + x / 4; 64 * (x mod 4) + z]
  | SaveFRegX x z => [0xDE; 32 * x + z]
  | AllocL x => [0xE0; x / 65536; x / 256 mod 256; x mod 256]
  | SetFp => [0xE1]
  | AddFp x => [0xE2; x]
  | Nop => [0xE3]
  | PacSignLr => [0xFC]
  end.
(** The codes of a prolog: the last instruction first, and an end code. *)
Definition prolog_bytes (p : list code) : list N := concat (map code_bytes (rev p)) ++ [0xE4].

(** How far an instruction moves the stack pointer down. *)
Definition down (c : code) : N :=
  match c with
  | AllocS x | AllocM x | AllocL x => 16 * x
  | SaveR19R20X z => 8 * z
  | SaveFpLrX z | SaveRegPX _ z | SaveRegX _ z | SaveFRegPX _ z | SaveFRegX _ z => 8 * (z + 1)
  | _ => 0
  end.
Definition frame (p : list code) : N := fold_right (fun c n => down c + n) 0 p.
(** Where an instruction puts the link register (x30), from the stack pointer after it. *)
Definition lr_place (c : code) : option N :=
  match c with
  | SaveFpLr z | SaveLrPair _ z => Some (8 * z + 8)
  | SaveFpLrX _ => Some 8
  | SaveReg x z => if N.eq_dec x 11 then Some (8 * z) else None
  | SaveRegX x _ => if N.eq_dec x 11 then Some 0 else None
  | SaveRegP x z => if N.eq_dec x 10 then Some (8 * z + 8) else if N.eq_dec x 11 then Some (8 * z) else None
  | SaveRegPX x _ => if N.eq_dec x 10 then Some 8 else if N.eq_dec x 11 then Some 0 else None
  | _ => None
  end.
(** In the prolog [p], one instruction saves the link register, and it lies [d] above the stack pointer that the prolog leaves. *)
Definition lr_saved (p : list code) (by_ : code) (d : N) : Prop :=
  exists before after k, p = before ++ by_ :: after /\ lr_place by_ = Some k /\ d = frame after + k /\
    Forall (fun c => lr_place c = None) before /\ Forall (fun c => lr_place c = None) after.

(** ** Unwind words *)

(** The word [u] points to the record at [u] (a multiple of four) of the image at [a] of [size] bytes: header, for long lists a second word, epilog scopes unless
    the single epilog is described in the header ([e]), and the codes. *)
Definition record_at (m : mem) (a size u len : N) (codes : list N) : Prop :=
  u mod 4 = 0 /\ exists x e epilogs words long,
    len < 2 ^ 18 /\ x < 2 /\ e < 2 /\
    N.of_nat (length codes) = 4 * words /\
    (if long : bool
     then words < 2 ^ 8 /\ epilogs < 2 ^ 16 /\ holds m (a + u) (le_bytes 4 (len + 2 ^ 20 * x + 2 ^ 21 * e)) /\ holds m (a + u + 4) (le_bytes 4 (epilogs + 2 ^ 16 * words))
     else words < 2 ^ 5 /\ epilogs < 2 ^ 5 /\ (words <> 0 \/ epilogs <> 0) /\ holds m (a + u) (le_bytes 4 (len + 2 ^ 20 * x + 2 ^ 21 * e + 2 ^ 22 * epilogs + 2 ^ 27 * words))) /\
    (let at_ := u + 4 * ((if long then 2 else 1) + (if N.eq_dec e 0 then epilogs else 0)) in
     at_ + 4 * words <= size /\ holds m (a + at_) codes).

(** A packed word: flag, length of the function in words, saved floating-point and integer registers, home area, kind of chain, frame size / 16. *)
Definition packed (flag len regf regi h cr fs : N) : N := flag + 2 ^ 2 * len + 2 ^ 13 * regf + 2 ^ 16 * regi + 2 ^ 20 * h + 2 ^ 21 * cr + 2 ^ 23 * fs.
Definition packed_ok (flag len regf regi h cr fs : N) : Prop :=
  (flag = 1 \/ flag = 2) /\ len < 2 ^ 11 /\ regf < 8 /\ regi < 16 /\ h < 2 /\ cr < 4 /\ fs < 2 ^ 9.
(** The save area, and what is below it, the local area. *)
Definition save_area (regf regi h cr : N) : N :=
  let n := 8 * regi + (if N.eq_dec cr 1 then 8 else 0) + (if N.eq_dec regf 0 then 0 else 8 * (regf + 1)) + 64 * h in (n + 15) / 16 * 16.
Definition local_area (regf regi h cr fs : N) : N := 16 * fs - save_area regf regi h cr.
(** Where the link register is: above the frame pointer at the bottom, or behind the integer registers, or not on the stack. *)
Definition packed_lr (regf regi h cr fs : N) : option N :=
  if N.eq_dec cr 0 then None else if N.eq_dec cr 1 then Some (local_area regf regi h cr fs + 8 * regi) else Some 8.

(** ** Calls *)

(** The table of functions: entry [k] is the start and the unwind word; the length of the function is in the record, or in the word. *)
Definition arm_entry (m : mem) (table k start u : N) : Prop := holds m (table + 8 * k) (le_bytes 4 start ++ le_bytes 4 u) /\ start < 2 ^ 32 /\ u < 2 ^ 32.
Definition arm_length (m : mem) (a size u len : N) : Prop :=
  (exists codes, record_at m a size u len codes) \/ (exists flag regf regi h cr fs, packed_ok flag len regf regi h cr fs /\ u = packed flag len regf regi h cr fs).
Definition arm_table (m : mem) (a pe size rva n : N) : Prop :=
  holds m (a + pe + 0x18) [0x0B; 0x02] /\ holds m (a + pe + 0xA0) (le_bytes 4 rva) /\ holds m (a + pe + 0xA4) (le_bytes 4 (8 * n)) /\
  0 < rva /\ 0 < n /\ rva + 8 * n <= size /\ pe + 0xA8 <= size /\
  forall k, k < n -> exists s u len, arm_entry m (a + rva) k s u /\ arm_length m a size u len /\ s + 4 * len < 2 ^ 32.

(** The function that runs at [pc], in the image at [a] of [size] bytes, has the unwind word [u]. *)
Definition arm_function (m : mem) (pc a size u : N) : Prop := mem_ok m /\
  exists pe rva n k start len, image_of m pc a pe size /\ arm_table m a pe size rva n /\ k < n /\
    arm_entry m (a + rva) k start u /\ arm_length m a size u len /\ start <= pc - a < start + 4 * len /\
    (forall j s v l, j < k -> arm_entry m (a + rva) j s v -> arm_length m a size v l -> pc - a < s \/ s + 4 * l < pc - a).

(** A function that the trace can see through: its link register was saved by [SaveFpLr], or it is a chained function with packed data; [d] and [f]: where the
    link register is and the size of the frame, both from the stack pointer.  Vector registers that are saved with a change of the stack pointer are left out. *)
Definition plain (c : code) : Prop := match c with SaveFRegPX _ _ => False | SaveFRegX x _ => x mod 2 = 0 | _ => True end.
Definition seen (m : mem) (a size u d f : N) : Prop :=
  (exists p rest len z, record_at m a size u len (prolog_bytes p ++ rest) /\ Forall code_ok p /\ Forall plain p /\ lr_saved p (SaveFpLr z) d /\ f = frame p /\ f < 2 ^ 31) \/
  (exists flag len regf regi h cr fs, packed_ok flag len regf regi h cr fs /\ u = packed flag len regf regi h cr fs /\ packed_lr regf regi h cr fs = Some d /\ f = 16 * fs /\
     (cr = 2 \/ cr = 3)).

(** A stack of calls: each returns to the address in its saved link register. *)
Inductive arm_calls (m : mem) : N -> N -> list line -> N -> N -> Prop :=
| a_none pc sp : arm_calls m pc sp [] pc sp
| a_call pc sp a size u d f pc1 ls pc2 sp2 : arm_function m pc a size u -> seen m a size u d f ->
    sp + f < 2 ^ 64 -> sp + d < 2 ^ 64 -> pc1 < 2 ^ 64 -> holds m (sp + d) (le_bytes 8 pc1) -> (ls <> [] -> pc1 <> 0) ->
    arm_calls m pc1 (sp + f) ls pc2 sp2 -> arm_calls m pc sp (Line sp pc1 (pc - a) :: ls) pc2 sp2.
