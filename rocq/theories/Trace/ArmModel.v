(** The stack trace of AArch64: core/patina_stacktrace/src/aarch64/runtime_function.rs:52-112 and aarch64/unwind.rs:127-256, 395-632, with the common part of
    [Trace.Model].  Memory can be read everywhere, as there. *)
From Verif Require Import Base.Prelude Base.Bytes Mm.Model Trace.Model.
Local Open Scope N_scope.

(** Why there is no result: an error, or a loop without end. *)
Inductive stop := Fails (e : sterr) | Never.
Definition lift {A} (r : res sterr A) : res stop A := match r with Ok x => Ok x | Err e => Err (Fails e) | Panic => Panic end.
(** Addition of u32. *)
Definition add32 {E} (dbg : bool) (a b : N) : res E N := if a + b <? two32 then Ok (a + b) else if dbg then Panic else Ok ((a + b) mod two32).
(** A slice [from..to] of the image as a number of four bytes. *)
Definition word_at {E} (m : mem) (img : slice) (off : N) : res E N :=
  if sl_len img <? off + 4 then Panic else Ok (le_val (readm m (sl_base img + off) 4)).

(** runtime_function.rs:74-104: the end of a function. *)
Definition function_end (dbg : bool) (m : mem) (img : slice) (start info : N) : res stop N :=
  let* len := (if info mod 4 =? 0 then let* h := word_at m img info in Ok (h mod 2 ^ 18 * 4)
               else if info mod 4 =? 3 then Ok 0 else Ok (info / 4 mod 2 ^ 11 * 4)) in
  add32 dbg start len.
(** 67-109. *)
Fixpoint find_arm_entry (n : nat) (dbg : bool) (m : mem) (img : slice) (base len rva : N) : res stop (N * N * N) :=
  match n with
  | O => Err (Fails RuntimeFunctionNotFound)
  | S k =>
      let c := Slice base (N.min 8 len) in
      match rd m c 0 4, rd m c 4 4 with
      | Ok s, Ok u =>
          let* e := function_end dbg m img s u in
          if (s <=? rva) && (rva <=? e) then Ok (s, e, u) else find_arm_entry k dbg m img (base + 8) (len - 8) rva
      | _, _ => Panic
      end
  end.
(** 59-112. *)
Definition find_arm_function (dbg : bool) (m : mem) (img : slice) (rva : N) : res stop (N * N * N) :=
  let* (t, size) := lift (exception_table m img) in
  let e := (t + size) mod two32 in
  if dbg && (two32 <=? t + size) then Panic
  else if (e <? t) || (sl_len img <? e) then Panic
  else find_arm_entry (N.to_nat ((e - t + 7) / 8)) dbg m img (sl_base img + t) (e - t) rva.

(** unwind.rs:427-632: from the codes, where the link register is saved and how far the stack pointer was moved, both from the stack pointer upward.  A byte that
    is none of the codes does not move the loop on. *)
Fixpoint walk (dbg : bool) (l : list N) (lr off : N) : res stop (N * N) :=
  match l with
  | [] => Ok (lr, off)
  | b :: r =>
      if b / 32 =? 0 then let* off := add32 dbg off (b mod 32 * 16) in walk dbg r lr off
      else if b / 32 =? 1 then let* off := add32 dbg off (b mod 32 * 8) in walk dbg r lr off
      else if b / 64 =? 1 then let* x := add32 dbg off (b mod 64 * 8) in let* lr := add32 dbg x 8 in walk dbg r lr off
      else if b / 64 =? 2 then let* off := add32 dbg off ((b mod 64 + 1) * 8) in let* lr := add32 dbg off 8 in walk dbg r lr off
      else if b / 8 =? 24 then match r with x :: r => let* off := add32 dbg off ((b mod 8 * 256 + x) * 16) in walk dbg r lr off | [] => Panic end
      else if b / 4 =? 50 then match r with _ :: r => walk dbg r lr off | [] => Ok (lr, off) end
      else if b / 4 =? 51 then match r with x :: r => let* off := add32 dbg off ((x mod 64 + 1) * 8) in walk dbg r lr off | [] => Panic end
      else if b / 4 =? 52 then match r with _ :: r => walk dbg r lr off | [] => Ok (lr, off) end
      else if b / 2 =? 106 then match r with x :: r => let* off := add32 dbg off ((x mod 32 + 1) * 8) in walk dbg r lr off | [] => Panic end
      else if (107 <=? b / 2) && (b / 2 <=? 110) then match r with _ :: r => walk dbg r lr off | [] => Ok (lr, off) end
      else if b =? 0xDE then match r with x :: r => let* off := add32 dbg off ((x mod 64 + 1) * 8) in walk dbg r lr off | [] => Panic end
      else if b =? 0xE0 then
        match r with x :: y :: z :: r => let* off := add32 dbg off ((x * 65536 + y * 256 + z) * 16) in walk dbg r lr off | _ => Panic end
      else if b =? 0xE1 then walk dbg r lr off
      else if b =? 0xE2 then match r with _ :: r => walk dbg r lr off | [] => Ok (lr, off) end
      else if b =? 0xE3 then walk dbg r lr off
      else if (b =? 0xE4) || (b =? 0xE5) then Ok (lr, off)
      else if (0xE6 <=? b) && (b <=? 0xEF) then walk dbg r lr off
      else if b =? 0xF8 then match r with _ :: r => walk dbg r lr off | [] => Panic end
      else if b =? 0xF9 then match r with _ :: _ :: r => walk dbg r lr off | _ => Ok (lr, off) end
      else if b =? 0xFA then match r with _ :: _ :: _ :: r => walk dbg r lr off | _ => Ok (lr, off) end
      else if b =? 0xFB then match r with _ :: _ :: _ :: _ :: r => walk dbg r lr off | _ => Ok (lr, off) end
      else if 0xFC <=? b then walk dbg r lr off
      else Err Never
  end.

(** 127-213, 235-246 and 395-423: the two offsets for a function with this unwind word. *)
Definition offsets (dbg : bool) (m : mem) (img : slice) (info : N) : res stop (N * N) :=
  if info mod 4 =? 0 then
    let* h := word_at m img info in
    if negb (h / 2 ^ 18 mod 4 =? 0) then Err (Fails UnwindInfoNotFound)
    else
      let words := h / 2 ^ 27 in
      let epilogs := h / 2 ^ 22 mod 32 in
      let e := h / 2 ^ 21 mod 2 in
      let* (words, epilogs, n) :=
        (if (words =? 0) && (epilogs =? 0) then let* h2 := word_at m img (info + 4) in Ok (h2 / 2 ^ 16 mod 2 ^ 8, h2 mod 2 ^ 16, 2)
         else Ok (words, epilogs, 1)) in
      let n := if e =? 0 then n + epilogs else n in
      let from := info + n * 4 in
      if sl_len img <? from + words * 4 then Panic
      else walk dbg (readm m (sl_base img + from) (N.to_nat (words * 4))) 0 0
  else if info mod 4 =? 3 then Err (Fails UnwindInfoNotFound)
  else
    let cr := info / 2 ^ 21 mod 4 in
    let frame_size := info / 2 ^ 23 mod 2 ^ 9 * 16 in
    Ok ((if cr <=? 1 then 0 else 8), frame_size).

(** 249-255. *)
Definition arm_frame (dbg : bool) (m : mem) (img : slice) (info sp : N) : res stop (N * N) :=
  let* (lr_offset, sp_offset) := offsets dbg m img info in
  let* at_ := uadd dbg sp lr_offset in
  let pc := le_val (readm m at_ 8) in
  let* sp' := uadd dbg sp sp_offset in
  Ok (sp', pc).

(** stacktrace.rs:37-79, as in [Trace.Model]. *)
Definition arm_step (dbg : bool) (m : mem) (pc sp : N) : res stop (line * N * N) :=
  let* img := lift (locate_image m pc) in
  let rva := pc - sl_base img in
  let* (_, _, info) := find_arm_function dbg m img (rva mod two32) in
  let* (sp', pc') := arm_frame dbg m img info sp in
  Ok (Line sp pc' rva, sp', pc').
Fixpoint arm_dump_from (n : nat) (dbg : bool) (m : mem) (pc sp : N) : list line * res stop unit :=
  match n with
  | O => ([], Err (Fails StackTraceDumpFailed))
  | S k =>
      match arm_step dbg m pc sp with
      | Ok (l, sp', pc') =>
          if pc' =? 0 then ([l], Ok tt) else let (ls, r) := arm_dump_from k dbg m pc' sp' in (l :: ls, r)
      | Err e => ([], Err e)
      | Panic => ([], Panic)
      end
  end.
Definition arm_dump_with (dbg : bool) (m : mem) (pc sp : N) : list line * res stop unit := arm_dump_from 20 dbg m pc sp.
