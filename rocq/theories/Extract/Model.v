(** Section extractors.  sdk/patina_ffs_extractors/src/{brotli,composite,crc32,lzma}.rs. *)
From Verif Require Import Base.Prelude Base.Bytes.
Local Open Scope N_scope.

(** The errors of patina_ffs that matter here; [Other] for the rest. *)
Inductive err := Unsupported | DataCorrupt | Other (n : N).
(** A section: the GUID of a GUID-defined one, the bytes of its header behind the common ones, and its content (section.rs:548-556: not of one that was changed). *)
Record sect := Sect { s_guid : option N; s_extra : list N; s_content : res err (list N) }.
(** fw_fs.rs:50-53 and lzma.rs:21-22; the fields one after the other. *)
Definition BROTLI : N := 0x3D5320505CDA4FD0879E0F7F630D5AFB.
Definition CRC32 : N := 0xFC1BCDB07D3149aa936AA4600D9DD083.
Definition LZMA : N := 0xEE4E5898391442599D6EDC7BD79403CF.
Definition is_guid (s : sect) (g : N) : bool := match s_guid s with Some x => x =? g | None => false end.

(** crc32.rs:22-39; [crc] is crc32fast::hash.  The conversion of the header's bytes to four panics if there are more. *)
Definition crc_extract (crc : list N -> N) (s : sect) : res err (list N) :=
  if is_guid s CRC32 then
    if Nat.ltb (length (s_extra s)) 4 then Err DataCorrupt
    else if negb (Nat.eqb (length (s_extra s)) 4) then Panic
    else
      let* content := s_content s in
      if negb (le_val (s_extra s) =? crc content) then Err DataCorrupt else Ok content
  else Err Unsupported.
(** brotli.rs:60-94; [decode] is the decompressor, given the whole stream; it succeeds if the output has room.  Memory is allocated for the size the section
    claims: without room for it, a panic. *)
Definition brotli_extract (mem : N) (decode : list N -> option (list N)) (s : sect) : res err (list N) :=
  if is_guid s BROTLI then
    let* data := s_content s in
    if Nat.ltb (length data) 16 then Panic
    else
      let size := le_val (firstn 8 data) in
      if mem <? size then Panic
      else match decode (skipn 16 data) with
           | Some out => if N.of_nat (length out) <=? size then Ok (out ++ repeat 0 (N.to_nat size - length out)) else Err DataCorrupt
           | None => Err DataCorrupt
           end
  else Err Unsupported.
(** lzma.rs:32-53; [decode] is the decompressor, given the header too. *)
Definition lzma_extract (mem : N) (decode : list N -> option (list N)) (s : sect) : res err (list N) :=
  if is_guid s LZMA then
    let* data := s_content s in
    if Nat.ltb (length data) 13 then Panic
    else
      let size := le_val (firstn 8 (skipn 5 data)) in
      if negb (size =? 2 ^ 64 - 1) && (mem <? size) then Panic
      else match decode data with Some out => Ok out | None => Err DataCorrupt end
  else Err Unsupported.
(** composite.rs:49-78, one step: on to the next if the section is not supported. *)
Definition or_else (r : res err (list N)) (next : res err (list N)) : res err (list N) := match r with Err Unsupported => next | _ => r end.
Definition composite (mem : N) (crc : list N -> N) (brotli lzma : list N -> option (list N)) (s : sect) : res err (list N) :=
  or_else (brotli_extract mem brotli s) (or_else (crc_extract crc s) (or_else (lzma_extract mem lzma s) (Err Unsupported))).
