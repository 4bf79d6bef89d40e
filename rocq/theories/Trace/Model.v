(** The stack trace of x86-64: core/patina_stacktrace/src/byte_reader.rs:17-81, pe.rs:41-193, stacktrace.rs:37-79,
    x64/runtime_function.rs:52-81 and x64/unwind.rs:46-188.  Memory is that of [Mm.Model]: every address can be read (faults
    are not modelled) and addresses do not wrap when a slice is made.  Of an image's name only the arithmetic is modelled. *)
From Verif Require Import Base.Prelude Base.Bytes Mm.Model.
Local Open Scope N_scope.

(** error.rs. *)
Inductive sterr := BufferTooShort | ImageNotFound | ExceptionDirectoryNotFound | RuntimeFunctionNotFound | Malformed
                 | UnwindInfoNotFound | StackOffsetNotFound | StackTraceDumpFailed.

(** A slice of memory. *)
Record slice := Slice { sl_base : N; sl_len : N }.

(** byte_reader.rs:18-40: [n] bytes, least significant first. *)
Definition rd (m : mem) (s : slice) (off : N) (n : nat) : res sterr N :=
  if sl_len s <? off + N.of_nat n then Err BufferTooShort else Ok (le_val (readm m (sl_base s + off) n)).
Definition rd_or_0 (m : mem) (s : slice) (off : N) (n : nat) : N := match rd m s off n with Ok v => v | _ => 0 end.

(** ** Images *)

(** pe.rs:4-23. *)
Definition MZ : N := 0x5A4D.
Definition PE_POINTER : N := 0x3C.
Definition PE_SIGNATURE : N := 0x4550.
Definition PE_MAGIC : N := 0x18.
Definition PE64 : N := 0x20B.
Definition SIZE_OF_IMAGE : N := 0x50.
Definition EXC32 : N := 0x90.
Definition EXC64 : N := 0xA0.
Definition DEBUG_DIR : N := EXC64 + 0x18.
Definition RSDS : N := 0x53445352.

(** pe.rs:109-120: the first chunk of 28 bytes, of which the last may be shorter, whose type is CodeView. *)
Fixpoint codeview (n : nat) (m : mem) (base len : N) : option (N * N) :=
  match n with
  | O => None
  | S k =>
      let c := Slice base (N.min 0x1C len) in
      if rd_or_0 m c 0xC 4 =? 2 then Some (rd_or_0 m c 0x14 4, rd_or_0 m c 0x10 4) else codeview k m (base + 0x1C) (len - 0x1C)
  end.

(** pe.rs:96-160 [get_image_name], up to the slice of the file name: its length is a subtraction, which panics in a debug
    build and makes an impossible slice in a release build; both are counted as a panic. *)
Definition image_name (m : mem) (base rva size : N) : res sterr unit :=
  match codeview (N.to_nat ((size + 0x1B) / 0x1C)) m (base + rva) size with
  | None => Ok tt
  | Some (r, s) =>
      if (r =? 0) || (s =? 0) then Ok tt
      else if negb (le_val (readm m (base + r) 4) =? RSDS) then Ok tt
      else if s <? 0x18 then Panic
      else Ok tt
  end.

(** pe.rs:43-93 [locate_image]: the page with number [p] and those below it; page zero is not looked at. *)
Fixpoint locate_from (m : mem) (p : nat) : res sterr slice :=
  match p with
  | O => Err ImageNotFound
  | S k =>
      let base := 4096 * N.of_nat p in
      let page := Slice base 4096 in
      let* sig := rd m page 0 2 in
      if sig =? MZ then
        let* pe := rd m page PE_POINTER 4 in
        let* psig := rd m page pe 4 in
        if psig =? PE_SIGNATURE then
          let* size := rd m page (pe + SIZE_OF_IMAGE) 4 in
          let drva := rd_or_0 m page (pe + DEBUG_DIR) 4 in
          let dsize := rd_or_0 m page (pe + DEBUG_DIR + 4) 4 in
          let* _ := (if negb (dsize =? 0) then image_name m base drva dsize else Ok tt) in
          Ok (Slice base size)
        else locate_from m k
      else locate_from m k
  end.
Definition locate_image (m : mem) (rip : N) : res sterr slice := locate_from m (N.to_nat (rip / 4096)).

(** pe.rs:162-193 [get_exception_table]. *)
Definition exception_table (m : mem) (img : slice) : res sterr (N * N) :=
  let* pe := rd m img PE_POINTER 4 in
  let* magic := rd m img (pe + PE_MAGIC) 2 in
  let off := if magic =? PE64 then pe + EXC64 else pe + EXC32 in
  let* rva := rd m img off 4 in
  let* size := rd m img (off + 4) 4 in
  if (rva =? 0) || (size =? 0) then Err ExceptionDirectoryNotFound else Ok (rva, size).

(** ** Functions *)

(** runtime_function.rs:69-78: the table entries, lazily; [unwrap] panics on a last chunk of fewer than twelve bytes. *)
Fixpoint find_entry (n : nat) (m : mem) (base len rva : N) : res sterr (N * N * N) :=
  match n with
  | O => Err RuntimeFunctionNotFound
  | S k =>
      let c := Slice base (N.min 12 len) in
      match rd m c 0 4, rd m c 4 4, rd m c 8 4 with
      | Ok s, Ok e, Ok u => if (s <=? rva) && (rva <=? e) then Ok (s, e, u) else find_entry k m (base + 12) (len - 12) rva
      | _, _, _ => Panic
      end
  end.

(** runtime_function.rs:59-81 [find_function]. *)
Definition find_function (dbg : bool) (m : mem) (img : slice) (rva : N) : res sterr (N * N * N) :=
  let* (t, size) := exception_table m img in
  let e := (t + size) mod two32 in
  if dbg && (two32 <=? t + size) then Panic
  else if (e <? t) || (sl_len img <? e) then Panic
  else find_entry (N.to_nat ((e - t + 11) / 12)) m (sl_base img + t) (e - t) rva.

(** ** Unwinding *)

(** unwind.rs:46-81 [parse] and runtime_function.rs:52-55: the unwind codes. *)
Definition unwind_codes (m : mem) (img : slice) (info : N) : res sterr (list N) :=
  if sl_len img <? info then Panic
  else
    let b := Slice (sl_base img + info) (sl_len img - info) in
    match rd m b 0 1, rd m b 1 1, rd m b 2 1, rd m b 3 1 with
    | Ok v, Ok _, Ok count, Ok _ =>
        if negb (v mod 8 =? 1) && negb (v mod 8 =? 2) then Err UnwindInfoNotFound
        else if sl_len b <=? 4 + count * 2 then Err UnwindInfoNotFound
        else Ok (readm m (sl_base b + 4) (N.to_nat (count * 2)))
    | _, _, _, _ => Err UnwindInfoNotFound
    end.

(** unwind.rs:144-188 [get_stack_pointer_offset]. *)
Fixpoint codes_offset (l : list N) (acc : N) : res sterr N :=
  match l with
  | [] => Ok acc
  | _ :: b :: r =>
      let opcode := b mod 16 in
      let info := b / 16 in
      if opcode =? 0 then codes_offset r (acc + 8)
      else if opcode =? 1 then
        if info =? 0 then
          match r with x :: y :: r' => codes_offset r' (acc + le_val [x; y] * 8) | _ => Err BufferTooShort end
        else if info =? 1 then
          match r with w :: x :: y :: z :: r' => codes_offset r' (acc + le_val [w; x; y; z]) | _ => Err BufferTooShort end
        else Err Malformed
      else if opcode =? 2 then codes_offset r (acc + (info * 8 + 8))
      else if opcode =? 3 then codes_offset r acc
      else if opcode =? 4 then match r with _ :: _ :: r' => codes_offset r' acc | _ => Err BufferTooShort end
      else if opcode =? 5 then match r with _ :: _ :: _ :: _ :: r' => codes_offset r' acc | _ => Err BufferTooShort end
      else if opcode <=? 10 then codes_offset r acc
      else Panic
  | _ => Err BufferTooShort
  end.

(** unwind.rs:84-95: the stack pointer and the instruction pointer of the caller. *)
Definition stack_frame (dbg : bool) (m : mem) (codes : list N) (rsp : N) : res sterr (N * N) :=
  let* off := (match codes_offset codes 0 with Ok o => Ok o | Panic => Panic | Err _ => Err StackOffsetNotFound end) in
  let* prev := uadd dbg rsp off in
  let rip := le_val (readm m prev 8) in
  let* prev' := uadd dbg prev 8 in
  Ok (prev', rip).

(** ** The trace *)

(** One line: stack pointer, return address and offset in the image. *)
Record line := Line { ln_sp : N; ln_ret : N; ln_rva : N }.

(** stacktrace.rs:49-57. *)
Definition step (dbg : bool) (m : mem) (pc sp : N) : res sterr (line * N * N) :=
  let* img := locate_image m pc in
  let rva := pc - sl_base img in
  let* (_, _, info) := find_function dbg m img (rva mod two32) in
  let* codes := unwind_codes m img info in
  let* (sp', pc') := stack_frame dbg m codes sp in
  Ok (Line sp pc' rva, sp', pc').

(** stacktrace.rs:37-79 [dump_with]: the lines, and how it ends; [n] more turns are possible. *)
Fixpoint dump_from (n : nat) (dbg : bool) (m : mem) (pc sp : N) : list line * res sterr unit :=
  match n with
  | O => ([], Err StackTraceDumpFailed)
  | S k =>
      match step dbg m pc sp with
      | Ok (l, sp', pc') =>
          if pc' =? 0 then ([l], Ok tt) else let (ls, r) := dump_from k dbg m pc' sp' in (l :: ls, r)
      | Err e => ([], Err e)
      | Panic => ([], Panic)
      end
  end.
Definition dump_with (dbg : bool) (m : mem) (pc sp : N) : list line * res sterr unit := dump_from 20 dbg m pc sp.
