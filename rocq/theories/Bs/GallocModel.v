(** The SDK's global allocator on boot services, sdk/patina/src/boot_services/global_allocator.rs. *)
From Verif Require Import Base.Prelude Base.Bytes.
Local Open Scope N_scope.

(** Blocks of the pool that are allocated (address, size), frees of anything else, and memory, byte by byte. *)
Record gst := Gst { g_live : list (N * N); g_wild : list N; g_mem : N -> N }.

(** A pointer in memory: eight bytes, little endian. *)
Definition write_word (m : N -> N) (a v : N) : N -> N := fun x => if (a <=? x) && (x <? a + 8) then nth (N.to_nat (x - a)) (le_bytes 8 v) 0 else m x.
Definition read_word (m : N -> N) (a : N) : N := le_val [m a; m (a + 1); m (a + 2); m (a + 3); m (a + 4); m (a + 5); m (a + 6); m (a + 7)].

(** core::alloc::Layout::extend by a pointer: size, alignment and the offset of the pointer. *)
Definition extend (size align : N) : option (N * N * N) :=
  let off := (size + 7) / 8 * 8 in
  let size := off + 8 in
  let align := N.max align 8 in
  if size <=? 2 ^ 63 - align then Some (size, align, off) else None.
(** core's align_offset. *)
Definition align_offset (p align : N) : N := (align - p mod align) mod align.

(** global_allocator.rs:28-45.  [pool] is the answer of the firmware for a size.  Zero is null. *)
Definition g_alloc (dbg : bool) (st : gst) (pool : N -> option N) (size align : N) : res unit (N * gst) :=
  if align <=? 8 then
    match pool size with
    | Some p => Ok (p, Gst ((p, size) :: g_live st) (g_wild st) (g_mem st))
    | None => Ok (0, st)
    end
  else
    match extend size align with
    | None => Ok (0, st)
    | Some (esize, ealign, off) =>
        let* n := uadd dbg ealign esize in
        match pool n with
        | None => Ok (0, st)
        | Some o =>
            let p := o + align_offset o ealign in
            Ok (p, Gst ((o, n) :: g_live st) (g_wild st) (write_word (g_mem st) (p + off) o))
        end
    end.

(** FreePool. *)
Fixpoint remove_block (o : N) (l : list (N * N)) : list (N * N) := match l with [] => [] | b :: l => if fst b =? o then l else b :: remove_block o l end.
Definition g_free (st : gst) (o : N) : gst :=
  if existsb (fun b => fst b =? o) (g_live st) then Gst (remove_block o (g_live st)) (g_wild st) (g_mem st) else Gst (g_live st) (o :: g_wild st) (g_mem st).
(** global_allocator.rs:47-60. *)
Definition g_dealloc (dbg : bool) (st : gst) (p size align : N) : res unit gst :=
  if align <=? 8 then Ok (g_free st p)
  else
    match extend size align with
    | None => Ok st
    | Some (_, ealign, off) =>
        let o := read_word (g_mem st) (p + off) in
        if dbg && negb (p =? o + align_offset o ealign) then Panic
        else Ok (g_free st o)
    end.
