(** GetMemoryMap and the map key: patina_dxe_core/src/allocator.rs:595-775, on the memory map of [Gcd.Model] and the
    allocators of [Alloc.Model].

    The vectors the code allocates are not modelled: they are allocated before the map is read (623-629). *)
From Verif Require Import Base.Prelude Base.Bytes Gcd.Blocks Gcd.Model Alloc.Model.
Local Open Scope N_scope.

(** [efi::MemoryDescriptor] of the crate r-efi; [virtual_start] is always 0. *)
Record descr := Descr { d_type : N; d_start : N; d_pages : N; d_attr : N }.

(** allocator.rs:376-378 [memory_type_for_handle]. *)
Definition type_for_handle (als : list alloc) (h : N) : option N :=
  option_map al_type (find (fun a => al_handle a =? h) als).

(** allocator.rs:639-667: the allocator's memory type, else by the type in the map. *)
Definition type_of_block (als : list alloc) (st : mstate) : option N :=
  match type_for_handle als (ms_image st) with
  | Some t => Some t
  | None =>
    match ms_type st with
    | SystemMemory => Some 7
    | MemoryMappedIo => Some (if N.land (ms_attrs st) MEMORY_ISA_VALID =? MEMORY_ISA_VALID then 12 else 11)
    | Persistent => Some 14
    | Unaccepted => Some 15
    | Reserved => Some 0
    | _ => None
    end
  end.

(** allocator.rs:677-691. *)
Definition attr_of_block (active : bool) (ty : N) (st : mstate) : N :=
  let a := if active then ms_attrs st
           else N.lor (N.ldiff (ms_caps st) (N.lor MEMORY_ACCESS_MASK MEMORY_RUNTIME)) (N.land (ms_attrs st) MEMORY_RUNTIME) in
  if (ty =? 5) || (ty =? 6) then N.lor a MEMORY_RUNTIME else a.

(** allocator.rs:638-700, the [filter_map]. *)
Definition convert (active : bool) (als : list alloc) (b : mblock) : option descr :=
  match type_of_block als (b_st b) with
  | None => None
  | Some t =>
    let n := N.shiftr (b_len b) 12 in
    if n =? 0 then None
    else if negb (b_base b mod 0x1000 =? 0) then None
    else Some (Descr t (b_base b) n (attr_of_block active t (b_st b)))
  end.

(** allocator.rs:595-611 [merge_blocks].  The list is kept in reverse: its head is the last descriptor.  Sums stay
    below the end of the map, less than 2^64, so they are exact. *)
Definition merge_blocks (rev_previous : list descr) (c : descr) : list descr :=
  match rev_previous with
  | d :: r =>
    if (d_type d =? d_type c) && (d_attr d =? d_attr c) && (d_start d + d_pages d * 4096 =? d_start c)
    then Descr (d_type d) (d_start d) (d_pages d + d_pages c) (d_attr d) :: r
    else c :: rev_previous
  | [] => [c]
  end.

Fixpoint filter_map {A B} (f : A -> option B) (l : list A) : list B :=
  match l with [] => [] | x :: t => match f x with Some y => y :: filter_map f t | None => filter_map f t end end.

(** allocator.rs:622-702 [get_memory_map_descriptors]. *)
Definition descriptors (active : bool) (als : list alloc) (g : gcd) : list descr :=
  rev (fold_left merge_blocks (filter_map (convert active als) (g_blocks g)) []).

(** ** The bytes of the map and its key *)

(** The 40 bytes of a descriptor.  After the type come four bytes of padding that Rust does not initialise: [pad] is
    what they happen to hold. *)
Definition descr_bytes (pad : list N) (d : descr) : list N :=
  le_bytes 4 (d_type d) ++ pad ++ le_bytes 8 (d_start d) ++ le_bytes 8 0 ++ le_bytes 8 (d_pages d) ++ le_bytes 8 (d_attr d).
Definition map_bytes (pads : nat -> list N) (l : list descr) : list N :=
  concat (map (fun p => descr_bytes (pads (fst p)) (snd p)) (combine (seq 0 (length l)) l)).

(** The CRC-32 of the crate crc32fast by its standard definition (polynomial 0x04C11DB7, bits reflected). *)
Definition CRC_POLY : N := 0xEDB88320.
Definition crc_bit (s : N) (b : bool) : N :=
  let t := N.lxor s (N.b2n b) in
  if N.odd t then N.lxor (N.div2 t) CRC_POLY else N.div2 t.
Definition byte_bits (x : N) : list bool := map (N.testbit x) [0; 1; 2; 3; 4; 5; 6; 7].
Definition crc32 (l : list N) : N := N.lxor (fold_left crc_bit (concat (map byte_bits l)) 0xFFFFFFFF) 0xFFFFFFFF.

(** allocator.rs:704-766 [get_memory_map]. *)
Inductive gm_status := GSuccess | GInvalidParameter | GBufferTooSmall.
(** What the call writes through its pointers. *)
Record gm_out := GmOut { o_size : option N; o_map : option (list N); o_key : option N; o_desc_size : option N; o_version : option N }.
(** [size]: what MemoryMapSize points to, [None] for a null pointer; the flags tell which other pointers are not null. *)
Definition get_memory_map (pads : nat -> list N) (als : list alloc) (g : gcd) (size : option N) (map_ key_ dsize_ version_ : bool)
  : res efi_error (gm_status * gm_out) :=
  match size with
  | None => Ok (GInvalidParameter, GmOut None None None None None)
  | Some n =>
    let ds := if dsize_ then Some 40 else None in
    let vs := if version_ then Some 1 else None in
    let l := descriptors false als g in
    match l with
    | [] => Panic                                                     (* assert_ne! 733 *)
    | _ =>
      let need := N.of_nat (length l) * 40 in
      if n <? need then Ok (GBufferTooSmall, GmOut (Some need) None None ds vs)
      else if negb map_ then Ok (GInvalidParameter, GmOut (Some need) None None ds vs)
      else
        let bytes := map_bytes pads l in
        Ok (GSuccess, GmOut (Some need) (Some bytes) (if key_ then Some (crc32 bytes) else None) ds vs)
    end
  end.

(** allocator.rs:768-775 [terminate_memory_map]; [pads] is the padding of the vector of this call. *)
Definition terminate_memory_map (pads : nat -> list N) (als : list alloc) (g : gcd) (key : N) : res efi_error unit :=
  if key =? crc32 (map_bytes pads (descriptors false als g)) then Ok tt else Err InvalidParameter.
