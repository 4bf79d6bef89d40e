(** * The owned device path type of the SDK

    sdk/patina/src/uefi_protocol/device_path.rs, device_path_node.rs, nodes.rs.
    A [DevicePathBuf]/[DevicePath] is its byte buffer. *)

From Verif Require Import Base.Prelude DevPath.Model.
Open Scope N_scope.

(** What [DevicePathBuf::append] sees of a node: the header it reports (its
    [length] is a [usize]) and the bytes its [write_into] emits after the
    header. *)
Record anode := ANode { a_type : N; a_sub : N; a_len : N; a_body : list N }.

(** Header::try_into_ctx, device_path_node.rs:41-51: [self.length as u16]. *)
Definition hdr_bytes (n : anode) : list N :=
  let l := a_len n mod 65536 in [a_type n; a_sub n; l mod 256; l / 256].

Definition zeros (n : N) : list N := repeat 0 (N.to_nat n).

(** [bytes] written over the front of [buf], which is at least as long. *)
Definition overlay (bytes buf : list N) : list N := bytes ++ skipn (length bytes) buf.

(** write_into, device_path_node.rs:110-126 and 217-226, into a buffer of
    exactly [a_len] zero bytes; each [gwrite_with] fails when its bytes do not
    fit, and the writes before it stay.  A header that does not fit leaves
    its leading fields: type, sub-type and (two bytes together) the length.
    Returns the buffer and the number of bytes, or [None] on an error. *)
Definition write_into (n : anode) : list N * option N :=
  let buf := zeros (a_len n) in
  let body := N.of_nat (length (a_body n)) in
  if a_len n <? 4 then (overlay (firstn (N.to_nat (N.min 2 (a_len n))) (hdr_bytes n)) buf, None)
  else if a_len n - 4 <? body then (overlay (hdr_bytes n) buf, None)
  else (overlay (hdr_bytes n ++ a_body n) buf, Some (4 + body)).

(** DevicePathBuf::append, device_path.rs:47-69.  The length must match the
    bytes written (line 66) and the write must succeed (line 67), or the
    debug build panics.  Failing to reserve memory is not modelled. *)
Definition append (dbg : bool) (buf : list N) (n : anode) : out (list N) :=
  let '(w, r) := write_into n in
  match r with
  | Some nb => if dbg && negb (a_len n =? nb) then Fault else Ret (buf ++ w)
  | None => if dbg then Fault else Ret (buf ++ w)
  end.

(** EndEntire and EndInstance, nodes.rs:312-: empty structs, [size_of] 0. *)
Definition EndEntire : anode := ANode 127 255 4 [].
Definition EndInstance : anode := ANode 127 1 4 [].

Definition is_end_entire (t s : N) : bool := (t =? 127) && (s =? 255).
Definition is_end_instance (t s : N) : bool := (t =? 127) && (s =? 1).

(** [buffer.len() - EndEntire.header().length] then [truncate], device_path.rs:73.
    An underflow panics in a debug build; in a release build it wraps to a
    length [truncate] ignores. *)
Definition drop_end (dbg : bool) (buf : list N) : out (list N) :=
  let n := N.of_nat (length buf) in
  if n <? 4 then (if dbg then Fault else Ret buf)
  else Ret (firstn (N.to_nat (n - 4)) buf).

(** append_device_path, device_path.rs:72-75. *)
Definition append_device_path (dbg : bool) (buf other : list N) : out (list N) :=
  obind (drop_end dbg buf) (fun b => Ret (b ++ other)).

(** append_device_path_instances, device_path.rs:78-82. *)
Definition append_device_path_instances (dbg : bool) (buf other : list N) : out (list N) :=
  obind (drop_end dbg buf) (fun b =>
  obind (append dbg b EndInstance) (fun b => Ret (b ++ other))).

(** from_device_path_node_iter, device_path.rs:86-102. *)
Fixpoint append_all (dbg : bool) (buf : list N) (last : option anode) (ns : list anode)
  : out (list N * option anode) :=
  match ns with
  | [] => Ret (buf, last)
  | n :: rest => obind (append dbg buf n) (fun b => append_all dbg b (Some n) rest)
  end.

Definition from_device_path_node_iter (dbg : bool) (ns : list anode) : out (list N) :=
  obind (append_all dbg [] None ns) (fun '(buf, last) =>
    match last with
    | Some h => if is_end_entire (a_type h) (a_sub h) then Ret buf else append dbg buf EndEntire
    | None => append dbg buf EndEntire
    end).

(** UnknownDevicePathNode::try_from_ctx, device_path_node.rs:128-140.  A short
    buffer and a length beyond it are errors ([None]); a length below 4 makes
    the slice [from[4..length]] panic. *)
Definition read_unknown (from : list N) : out (option (anode * N)) :=
  match read_hdr from with
  | None => Ret None
  | Some h =>
      if N.of_nat (length from) <? h_len h then Ret None
      else if h_len h <? 4 then Fault
      else Ret (Some (ANode (h_type h) (h_sub h) (h_len h)
                        (firstn (N.to_nat (h_len h - 4)) (skipn 4 from)), h_len h))
  end.

(** Iter::next, device_path.rs:316-330; the state is the unread part of the
    buffer.  [gread_with] advances by the returned size on success only. *)
Definition iter_next (dbg : bool) (st : list N) : out (option anode * list N) :=
  match st with
  | [] => Ret (None, [])
  | _ =>
      obind (read_unknown st) (fun r =>
        match r with
        | Some (n, sz) => Ret (Some n, skipn (N.to_nat sz) st)
        | None => if dbg then Fault else Ret (None, st)
        end)
  end.

Fixpoint iter_collect (dbg : bool) (fuel : nat) (st : list N) : out (list anode) :=
  match fuel with
  | O => Hang
  | S fuel' =>
      obind (iter_next dbg st) (fun '(o, st') =>
        match o with
        | None => Ret []
        | Some n => obind (iter_collect dbg fuel' st') (fun l => Ret (n :: l))
        end)
  end.

(** DevicePath::iter, device_path.rs:241-243, collected. *)
Definition iter (dbg : bool) (buf : list N) : out (list anode) :=
  iter_collect dbg (S (length buf)) buf.

(** size, node_count and is_multi_instance, device_path.rs:193-205. *)
Definition size (buf : list N) : N := N.of_nat (length buf).

Definition node_count (dbg : bool) (buf : list N) : out N :=
  obind (iter dbg buf) (fun l => Ret (N.of_nat (length l))).

Definition is_multi_instance (dbg : bool) (buf : list N) : out bool :=
  obind (iter dbg buf) (fun l =>
    Ret (existsb (fun n => is_end_instance (a_type n) (a_sub n)) l)).

(** slice_end, the loop at device_path.rs:217-220: [pread_with] beyond the
    buffer is an [Err] and [unwrap] panics.  The state is the unread part. *)
Fixpoint skip_nodes (k : nat) (st : list N) : out (list N) :=
  match k with
  | O => Ret st
  | S k' => match read_hdr st with
            | None => Fault
            | Some h => if N.of_nat (length st) <? h_len h then Fault
                        else skip_nodes k' (skipn (N.to_nat (h_len h)) st)
            end
  end.

(** slice_end, device_path.rs:209-223.  [count - n] underflowing panics in a
    debug build; in a release build the loop then runs past the buffer and
    its [unwrap] panics (or the loop is astronomically long). *)
Definition slice_end (dbg : bool) (buf : list N) (n : N) : out (list N) :=
  obind (node_count dbg buf) (fun count =>
    if dbg && (n =? 0) then Fault
    else if count <? n then Fault
    else skip_nodes (N.to_nat (count - n)) buf).

(** [self_node != other_node] on [UnknownDevicePathNode], derived PartialEq
    (device_path_node.rs:85): header (type, sub-type, length) and data. *)
Definition anode_eqb (x y : anode) : bool :=
  (a_type x =? a_type y) && (a_sub x =? a_sub y) && (a_len x =? a_len y)
  && bytes_eqb (a_body x) (a_body y).

(** starts_with, device_path.rs:226-238, on the two collected iterations (the
    [zip] stops at the shorter one). *)
Fixpoint starts_loop (xs ys : list anode) : bool :=
  match xs, ys with
  | x :: xs', y :: ys' =>
      if a_type y =? 127 then true
      else if anode_eqb x y then starts_loop xs' ys'
      else false
  | _, _ => false
  end.

Definition starts_with (dbg : bool) (buf other : list N) : out bool :=
  obind (iter dbg buf) (fun xs =>
  obind (iter dbg other) (fun ys => Ret (starts_loop xs ys))).

(** PartialEq for &DevicePath, device_path.rs:251-255. *)
Definition path_eqb (a b : list N) : bool := bytes_eqb a b.

(** IterInstance::next, device_path.rs:287-298, over the collected nodes:
    the item built so far, and the nodes left after it. *)
Fixpoint next_instance (dbg : bool) (item : option (list N)) (ns : list anode)
  : out (option (list N) * list anode) :=
  match ns with
  | [] => Ret (item, [])
  | n :: rest =>
      let cur := match item with Some b => b | None => [] end in
      if a_type n =? 127 then
        obind (append dbg cur EndEntire) (fun b => Ret (Some b, rest))
      else
        obind (append dbg cur n) (fun b => next_instance dbg (Some b) rest)
  end.

Fixpoint instances_loop (dbg : bool) (fuel : nat) (ns : list anode) : out (list (list N)) :=
  match fuel with
  | O => Hang
  | S fuel' =>
      obind (next_instance dbg None ns) (fun '(o, rest) =>
        match o with
        | None => Ret []
        | Some b => obind (instances_loop dbg fuel' rest) (fun l => Ret (b :: l))
        end)
  end.

(** iter_instances, device_path.rs:246-248, collected. *)
Definition iter_instances (dbg : bool) (buf : list N) : out (list (list N)) :=
  obind (iter dbg buf) (fun ns => instances_loop dbg (S (length ns)) ns).

(** try_from_ptr, device_path.rs:168-190.  [p] is what is readable at the
    pointer; [len] the length of the slice built so far and [off] the offset
    of the node being read.  Building a slice longer than what is readable is
    undefined behaviour. *)
Fixpoint try_from_ptr_loop (fuel : nat) (p : list N) (len off : N) : out (list N) :=
  match fuel with
  | O => Hang
  | S fuel' =>
      obind (raw_parts p len) (fun buffer =>
        match read_hdr (skipn (N.to_nat off) buffer) with
        | None => Fail OtherError
        | Some h =>
            if is_end_entire (h_type h) (h_sub h) then Ret buffer
            else try_from_ptr_loop fuel' p (len + h_len h) (off + h_len h)
        end)
  end.

Definition try_from_ptr (p : option (list N)) : out (list N) :=
  match p with
  | None => Fail OtherError
  | Some p => try_from_ptr_loop (S (length p)) p 4 0
  end.

(** ** The typed nodes of nodes.rs *)

(** Little-endian field of [w] bytes, as scroll's [Pwrite] derives it. *)
Fixpoint le (w : nat) (v : N) : list N :=
  match w with O => [] | S w' => v mod 256 :: le w' (v / 256) end.

Fixpoint of_le (bs : list N) : N :=
  match bs with [] => 0 | b :: r => b + 256 * of_le r end.

(** Pci, PcCard, MemoryMapped, Controller, Bmc, Acpi: nodes.rs:159-231. *)
Inductive typed :=
| Pci (function device : N)
| PcCard (function_number : N)
| MemoryMapped (memory_type start_address end_address : N)
| Controller (number : N)
| Bmc (interface_type base_address : N)
| Acpi (hid uid : N).

(** [core::mem::size_of::<Struct>()] of the default-representation structs:
    the field sizes rounded up to the largest field alignment. *)
Definition size_of (t : typed) : N :=
  match t with
  | Pci _ _ => 2            (* u8, u8 *)
  | PcCard _ => 1           (* u8 *)
  | MemoryMapped _ _ _ => 24  (* u32, u64, u64: 20 rounded up to 8 *)
  | Controller _ => 4       (* u32 *)
  | Bmc _ _ => 16           (* u8, u64: 9 rounded up to 8 *)
  | Acpi _ _ => 8           (* u32, u32 *)
  end.

(** The bytes the derived [Pwrite] emits: every field in turn, no padding. *)
Definition typed_body (t : typed) : list N :=
  match t with
  | Pci f d => le 1 f ++ le 1 d
  | PcCard f => le 1 f
  | MemoryMapped m s e => le 4 m ++ le 8 s ++ le 8 e
  | Controller n => le 4 n
  | Bmc i b => le 1 i ++ le 8 b
  | Acpi h u => le 4 h ++ le 4 u
  end.

(** header(), device_path_node.rs:204-211, and write_into as an [anode]. *)
Definition typed_anode (t : typed) : anode :=
  let mkn ty sub := ANode ty sub (4 + size_of t) (typed_body t) in
  match t with
  | Pci _ _ => mkn 1 1
  | PcCard _ => mkn 1 2
  | MemoryMapped _ _ _ => mkn 1 3
  | Controller _ => mkn 1 5
  | Bmc _ _ => mkn 1 6
  | Acpi _ _ => mkn 2 1
  end.

Definition field (d : list N) (off w : nat) : N := of_le (firstn w (skipn off d)).

(** cast_to_dyn_device_path_node, nodes.rs:116-157, for the fixed-size nodes
    above: [Ret None] is the fall-back to the unknown node.  A payload too
    short for the struct panics in a debug build and falls back otherwise.
    The Bios node is modelled separately below. *)
Definition cast (dbg : bool) (n : anode) : out (option typed) :=
  let d := a_body n in
  let short need k :=
    if (length d <? need)%nat then (if dbg then Fault else Ret None) else Ret (Some k) in
  if (a_type n =? 1) && (a_sub n =? 1) then short 2%nat (Pci (field d 0 1) (field d 1 1))
  else if (a_type n =? 1) && (a_sub n =? 2) then short 1%nat (PcCard (field d 0 1))
  else if (a_type n =? 1) && (a_sub n =? 3) then
    short 20%nat (MemoryMapped (field d 0 4) (field d 4 8) (field d 12 8))
  else if (a_type n =? 1) && (a_sub n =? 5) then short 4%nat (Controller (field d 0 4))
  else if (a_type n =? 1) && (a_sub n =? 6) then short 9%nat (Bmc (field d 0 1) (field d 1 8))
  else if (a_type n =? 2) && (a_sub n =? 1) then short 8%nat (Acpi (field d 0 4) (field d 4 4))
  else Ret None.

(** Bios, nodes.rs:273-311: [header()] reports 4 + size_of {u16, u16, String}
    = 4 + 32; [try_into_ctx] writes the two u16, the string bytes and, since
    the literal [0] at line 292 is an i32, four zero bytes. *)
Definition bios_anode (device_type status_flag : N) (str : list N) : anode :=
  ANode 5 1 (4 + 32) (le 2 device_type ++ le 2 status_flag ++ str ++ [0; 0; 0; 0]).

(** Acpi::eisa_id, nodes.rs:243-261, on seven ASCII codes.  [u8] subtraction
    below zero and a character that is not a hexadecimal digit are panics
    (compile errors when evaluated in a [const]). *)
Definition hex_digit (c : N) : option N :=
  if (48 <=? c) && (c <=? 57) then Some (c - 48)
  else if (97 <=? c) && (c <=? 102) then Some (c - 87)
  else if (65 <=? c) && (c <=? 70) then Some (c - 55)
  else None.

Definition eisa_id (s : list N) : option N :=
  match s with
  | b0 :: b1 :: b2 :: b3 :: b4 :: b5 :: b6 :: _ =>
      if (b0 <? 64) || (b1 <? 64) || (b2 <? 64) then None
      else
        let c1 := N.land (b0 - 64) 31 in
        let c2 := N.land (b1 - 64) 31 in
        let c3 := N.land (b2 - 64) 31 in
        match hex_digit b3, hex_digit b4, hex_digit b5, hex_digit b6 with
        | Some h1, Some h2, Some h3, Some h4 =>
            let byte_0 := N.lor (N.shiftl c1 2) (N.shiftr c2 3) in
            let byte_1 := N.lor (N.land (N.shiftl c2 5) 255) c3 in
            let byte_2 := N.lor (N.shiftl h1 4) h2 in
            let byte_3 := N.lor (N.shiftl h3 4) h4 in
            Some (of_le [byte_3; byte_2; byte_1; byte_0])
        | _, _, _, _ => None
        end
  | _ => None
  end.
