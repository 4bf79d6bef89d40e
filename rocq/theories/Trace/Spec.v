(** What a stack trace must show. *)
From Verif Require Import Base.Prelude Base.Bytes Mm.Model Mm.Spec Trace.Model.
Local Open Scope N_scope.

(** ** Functions and their frames

    What a prolog may do, and how the x64 calling convention encodes it: two bytes (place in the prolog, register or size
    and operation), and for some two or four bytes more. *)
Inductive op :=
| Push (reg : N)                    (* push reg *)
| AllocSmall (n : N)                (* sub rsp, 8 * n + 8 *)
| AllocLarge (n : N)                (* sub rsp, 8 * n *)
| AllocHuge (n : N)                 (* sub rsp, n *)
| SetFrame (reg : N)                (* lea rbp, [rsp + k] *)
| Save (reg k : N)                  (* mov [rsp + 8 * k], reg *)
| SaveFar (reg k : N)               (* mov [rsp + k], reg *)
| SaveXmm (reg k : N)               (* movaps [rsp + 16 * k], xmm *)
| SaveXmmFar (reg k : N).           (* movaps [rsp + k], xmm *)

Definition op_ok (o : op) : Prop :=
  match o with
  | Push r | SetFrame r => r < 16
  | AllocSmall n => n < 16
  | AllocLarge n => n < 65536
  | AllocHuge n => n < 2 ^ 32
  | Save r k | SaveXmm r k => r < 16 /\ k < 65536
  | SaveFar r k | SaveXmmFar r k => r < 16 /\ k < 2 ^ 32
  end.

(** The bytes by which the stack pointer moves. *)
Definition op_size (o : op) : N :=
  match o with Push _ => 8 | AllocSmall n => 8 * n + 8 | AllocLarge n => 8 * n | AllocHuge n => n | _ => 0 end.
Definition frame_size (ops : list op) : N := fold_right (fun o n => op_size o + n) 0 ops.

Definition encode_op (place : N) (o : op) : list N :=
  match o with
  | Push r => [place; 16 * r]
  | AllocLarge n => [place; 1] ++ le_bytes 2 n
  | AllocHuge n => [place; 17] ++ le_bytes 4 n
  | AllocSmall n => [place; 16 * n + 2]
  | SetFrame r => [place; 16 * r + 3]
  | Save r k => [place; 16 * r + 4] ++ le_bytes 2 k
  | SaveFar r k => [place; 16 * r + 5] ++ le_bytes 4 k
  | SaveXmm r k => [place; 16 * r + 8] ++ le_bytes 2 k
  | SaveXmmFar r k => [place; 16 * r + 9] ++ le_bytes 4 k
  end.
Definition encode (ops : list (N * op)) : list N := concat (map (fun p => encode_op (fst p) (snd p)) ops).

Definition saves_xmm (o : op) : Prop := match o with SaveXmm _ _ | SaveXmmFar _ _ => True | _ => False end.

(** ** Images in memory *)

(** The page at [a] starts an image of [size] bytes: "MZ", the offset [pe] of the header, "PE", and the size in it, all in
    the page; the directory of debug information, if there is one, has no record that states a size of 1 to 23. *)
Definition no_short_record (m : mem) (dir size : N) : Prop :=
  forall k rs, 28 * k + 0x14 <= size -> holds m (dir + 28 * k + 0xC) [2; 0; 0; 0] -> holds m (dir + 28 * k + 0x10) (le_bytes 4 rs) -> rs < 2 ^ 32 -> rs = 0 \/ 24 <= rs.

Record image_at (m : mem) (a pe size : N) : Prop := {
  ia_aligned : a mod 4096 = 0;
  ia_mz : holds m a [0x4D; 0x5A];
  ia_pe_at : holds m (a + 0x3C) (le_bytes 4 pe);
  ia_pe : holds m (a + pe) [0x50; 0x45; 0; 0];
  ia_fits : pe + 0xC0 <= 4096;
  ia_size : holds m (a + pe + 0x50) (le_bytes 4 size);
  ia_bounded : size < 2 ^ 32;
  ia_debug : exists rva n, rva < 2 ^ 32 /\ n < 2 ^ 32 /\ holds m (a + pe + 0xB8) (le_bytes 4 rva) /\ holds m (a + pe + 0xBC) (le_bytes 4 n) /\
      no_short_record m (a + rva) n;
  ia_in : a + size < 2 ^ 64
}.

(** The page at [a] is not the start of an image: it does not begin with "MZ", or where it says the header is, in the page, there is no "PE". *)
Definition no_image (m : mem) (a : N) : Prop :=
  m a <> 0x4D \/ m (a + 1) <> 0x5A \/
  exists x, holds m (a + 0x3C) (le_bytes 4 x) /\ x + 4 <= 4096 /\ ~ holds m (a + x) [0x50; 0x45; 0; 0].

(** [a] is the last image before [pc]: no page after [a] up to it looks like an image.  It is the image of the instruction
    at [pc] if that is within it. *)
Definition image_before (m : mem) (pc a pe size : N) : Prop :=
  image_at m a pe size /\ a <> 0 /\ a <= pc /\ forall b, b mod 4096 = 0 -> a < b <= pc -> no_image m b.
Definition image_of (m : mem) (pc a pe size : N) : Prop := image_before m pc a pe size /\ pc < a + size.

(** The table of functions of the image: entry [k] of [n]. *)
Definition entry (m : mem) (table k start stop info : N) : Prop :=
  holds m (table + 12 * k) (le_bytes 4 start ++ le_bytes 4 stop ++ le_bytes 4 info) /\ start < 2 ^ 32 /\ stop < 2 ^ 32 /\ info < 2 ^ 32.
Definition table_at (m : mem) (a pe size rva n : N) : Prop :=
  holds m (a + pe + 0x18) [0x0B; 0x02] /\ holds m (a + pe + 0xA0) (le_bytes 4 rva) /\ holds m (a + pe + 0xA4) (le_bytes 4 (12 * n)) /\
  0 < rva /\ 0 < n /\ rva + 12 * n <= size /\ pe + 0xA8 <= size /\
  forall k, k < n -> exists s e u, entry m (a + rva) k s e u.

(** ** One call *)

(** The function that runs at [pc], in the image at [a], has the prolog [ops]: some table entry has [pc] in its range, none
    before it touches [pc], and its unwind information is version one or two, size of the prolog, number of slots, frame
    register and the codes, with at least one byte of the image after it. *)
Record in_function (m : mem) (pc a : N) (ops : list (N * op)) : Prop := {
  if_image : exists pe size rva n k start stop info v prolog frame,
      image_of m pc a pe size /\ table_at m a pe size rva n /\
      k < n /\ entry m (a + rva) k start stop info /\ start <= pc - a < stop /\
      (forall j s e u, j < k -> entry m (a + rva) j s e u -> pc - a < s \/ e < pc - a) /\
      info + 4 + N.of_nat (length (encode ops)) < size /\ (v mod 8 = 1 \/ v mod 8 = 2) /\ v < 256 /\
      holds m (a + info) ([v; prolog; N.of_nat (length (encode ops)) / 2; frame] ++ encode ops);
  if_ops : Forall (fun p => fst p < 256 /\ op_ok (snd p)) ops;
  if_count : N.of_nat (length (encode ops)) < 512;
  if_memory : mem_ok m
}.

(** With the prolog done and the stack pointer [sp], the function returns to [pc'] with the stack pointer [sp']. *)
Definition returns_to (m : mem) (sp : N) (ops : list (N * op)) (sp' pc' : N) : Prop :=
  let top := sp + frame_size (map snd ops) in
  pc' < 2 ^ 64 /\ holds m top (le_bytes 8 pc') /\ sp' = top + 8 /\ sp' < 2 ^ 64.

(** A stack of calls: the innermost at [pc] with [sp], the outermost returning to zero; the lines that show it. *)
Inductive calls (m : mem) : N -> N -> list line -> N -> N -> Prop :=
| c_none pc sp : calls m pc sp [] pc sp
| c_call pc sp a ops sp1 pc1 ls pc2 sp2 : in_function m pc a ops -> Forall (fun p => ~ saves_xmm (snd p)) ops ->
    returns_to m sp ops sp1 pc1 -> (ls <> [] -> pc1 <> 0) -> calls m pc1 sp1 ls pc2 sp2 ->
    calls m pc sp (Line sp pc1 (pc - a) :: ls) pc2 sp2.
