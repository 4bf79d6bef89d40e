(** The firmware volume services of the DXE core: patina_dxe_core/src/fv.rs and decompress.rs:44-114.  Volumes, files and
    sections are those of [Ffs.Model]; memory is that of [Mm.Model].  Pointers that may be null are options; the allocator is a
    parameter.  Lists that are longer than [fuel] give [None].  Reading [file_type] and others through valid pointers is not
    modelled.  The lock and the protocol database are not modelled (installing a protocol succeeds). *)
From Verif Require Import Base.Prelude Base.Bytes Mm.Model Ffs.Model.
Local Open Scope N_scope.

(** patina_ffs/src/err.rs:37-52. *)
Definition efi_of (e : ferr) : efi_error :=
  match e with
  | FInvalidParameter | FNotComposed | FNotExtracted | FNotLeaf => InvalidParameter
  | FUnsupported => Unsupported
  | FInvalidHeader | FInvalidBlockMap | FInvalidState | FDataCorrupt => VolumeCorrupted
  | FComposeFailed => DeviceError
  end.
Definition lift {A} (r : res ferr A) : res efi_error A :=
  match r with Ok a => Ok a | Err e => Err (efi_of e) | Panic => Panic end.

(** fv.rs:33-51: which pointers are protocols of which volume. *)
Inductive item := Fvb (base : N) | Fv (base : N).
Definition table := list (N * item).
Definition lookup (t : table) (p : N) : option item := match find (fun e => fst e =? p) t with Some e => Some (snd e) | None => None end.
(** [BTreeMap::insert]. *)
Definition insert (t : table) (p : N) (i : item) : table := (p, i) :: filter (fun e => negb (fst e =? p)) t.

Definition fvb_base (t : table) (this : N) : res efi_error N :=
  match lookup t this with Some (Fvb b) => Ok b | _ => Err NotFound end.
Definition fv_base (t : table) (this : N) : res efi_error N :=
  match lookup t this with Some (Fv b) => Ok b | _ => Err NotFound end.

(** volume.rs:228-237 [new_from_address]. *)
Definition new_from_address (m : mem) (base : N) : res ferr volume_ref :=
  if negb (le_val (readm m (base + 40) 4) =? FVH) then Err FDataCorrupt
  else volume_ref_new (readm m base (N.to_nat (le_val (readm m (base + 32) 8)))).

(** ** The block protocol *)

(** fv.rs:64-95; [out] tells whether the pointer is not null. *)
Definition fvb_get_attributes (m : mem) (t : table) (this : N) (out : bool) : res efi_error N :=
  if negb out then Err InvalidParameter
  else
    let* b := fvb_base t this in
    let* v := lift (new_from_address m b) in
    Ok (vh_attr (vr_header v)).

(** fv.rs:104-122. *)
Definition fvb_get_physical_address (t : table) (this : N) (out : bool) : res efi_error N :=
  if negb out then Err InvalidParameter else fvb_base t this.

(** fv.rs:124-167: the block size and the number of blocks. *)
Definition fvb_get_block_size (dbg : bool) (m : mem) (t : table) (this lba : N) (out : bool) : res efi_error (N * N) :=
  if negb out then Err InvalidParameter
  else
    let* b := fvb_base t this in
    let* v := lift (new_from_address m b) in
    if two32 <=? lba then Err InvalidParameter
    else
      let* (block_size, remaining_blocks, _) := lift (lba_info dbg v lba) in
      Ok (block_size, remaining_blocks).

(** fv.rs:206-239: where the data lie and how many there are. *)
Definition core_fvb_read (dbg : bool) (m : mem) (t : table) (this lba offset n : N) : res efi_error (N * N) :=
  let* b := fvb_base t this in
  let* v := lift (new_from_address m b) in
  if two32 <=? lba then Err InvalidParameter
  else
    let* (lba_base, block_size, _) := lift (lba_info dbg v lba) in
    let* e := uadd dbg offset n in
    let* n := (if block_size <? e then debug_fail dbg (usub dbg block_size offset) else Ok n) in
    let* s := uadd dbg b lba_base in
    let* s := uadd dbg s offset in
    Ok (s, n).

Inductive fstatus := FSuccess | FWarnBufferTooSmall | FErr (e : efi_error).

(** fv.rs:169-204: status, number of bytes and memory; [n] is the number asked for, null if [None]. *)
Definition fvb_read (dbg : bool) (m : mem) (t : table) (this lba offset : N) (n : option N) (buffer : N) : res efi_error (fstatus * N * mem) :=
  match n with
  | None => Err InvalidParameter
  | Some n =>
      if buffer =? 0 then Err InvalidParameter
      else
        match core_fvb_read dbg m t this lba offset n with
        | Err e => Err e
        | Panic => Panic
        | Ok (s, len) =>
            if n <? len then Ok (FErr BufferTooSmall, len, m)
            else
              let m' := writem m buffer (readm m s (N.to_nat len)) in
              Ok (if negb (len =? n) then FErr BadBufferSize else FSuccess, len, m')
        end
  end.

(** ** The volume protocol *)

(** fv.rs:289-322. *)
Definition fv_get_volume_attributes (m : mem) (t : table) (this : N) (out : bool) : res efi_error N :=
  if negb out then Err InvalidParameter
  else
    let* b := fv_base t this in
    let* v := lift (new_from_address m b) in
    Ok (vh_attr (vr_header v)).

(** fvb/attributes.rs:23 and 30, fv/file.rs:21. *)
Definition READ_STATUS : N := 0x4.
Definition FVB_MEMORY_MAPPED : N := 0x400.
Definition FILE_MEMORY_MAPPED : N := 0x200.

Definition is_pad (f : file_ref) : bool := fh_type (fr_header f) =? FFS_PAD.

(** volume.rs:321-329, 373-410 with [filter] and [nth]: the file number [key] among those that [p] takes, as far as the
    iterator has to go; an error counts as taken, and nothing follows it. *)
Fixpoint nth_file (next : N -> step file_ref) (p : file_ref -> bool) (fuel : nat) (key : N) (o : option N) : option (res ferr (option file_ref)) :=
  match fuel with
  | O => None
  | S f =>
      match o with
      | None => Some (Ok None)
      | Some o =>
          match next o with
          | Stop => Some (Ok None)
          | StepPanic => Some Panic
          | Yield (Ok a) o' =>
              if negb (is_pad a) && p a then
                if key =? 0 then Some (Ok (Some a)) else nth_file next p f (key - 1) o'
              else nth_file next p f key o'
          | Yield (Err e) o' => if key =? 0 then Some (Err e) else nth_file next p f (key - 1) o'
          | Yield Panic _ => Some Panic
          end
      end
  end.
Definition vr_nth (fuel : nat) (v : volume_ref) (p : file_ref -> bool) (key : N) : option (res ferr (option file_ref)) :=
  match Ffs.Model.slice (vr_data v) (vr_content_offset v) (blen (vr_data v)) with
  | Ok d => nth_file (file_next d (erase_byte (vh_attr (vr_header v)))) p fuel key (Some 0)
  | _ => Some Panic
  end.

(** fv.rs:371-379, 515-523, 604-621: the file, or the error. *)
Definition select (fuel : nat) (v : volume_ref) (p : file_ref -> bool) (key : N) : option (res efi_error file_ref) :=
  if N.land (vh_attr (vr_header v)) READ_STATUS =? 0 then Some (Err AccessDenied)
  else
    match vr_nth fuel v p key with
    | Some (Ok (Some f)) => Some (Ok f)
    | Some (Ok None) => Some (Err NotFound)
    | Some (Err e) => Some (Err (efi_of e))
    | Some Panic => Some Panic
    | None => None
    end.
Definition named (name : list N) (f : file_ref) : bool := list_eqb (fh_name (fr_header f)) name.

(** What ReadFile leaves: the size, type and attributes if written, the buffer pointer and memory. *)
Record file_out := FileOut { fo_status : fstatus; fo_meta : option (N * N * N); fo_buffer : option N; fo_mem : mem }.

(** fv.rs:331-428: [buffer] is the pointer to the pointer ([None] if null), [args] tells whether the others are not null. *)
Definition fv_read_file (fuel : nat) (alloc : N -> res efi_error N) (m : mem) (t : table) (this : N) (name : list N) (buffer : option N)
    (size : N) (args : bool) : option (res efi_error file_out) :=
  let stop e := Some (Ok (FileOut (FErr e) None buffer m)) in
  if negb args then stop InvalidParameter
  else
    match fv_base t this with
    | Ok b =>
        match lift (new_from_address m b) with
        | Ok v =>
            match select fuel v (named name) 0 with
            | Some (Ok f) =>
                match fr_content f with
                | Ok c =>
                    let meta := Some (blen c, fh_type (fr_header f), fv_attributes f) in
                    match buffer with
                    | None => Some (Ok (FileOut FSuccess meta None m))
                    | Some ptr =>
                        if 0 <? size then
                          if size <? blen c then Some (Ok (FileOut (FErr BufferTooSmall) meta buffer m))
                          else if ptr =? 0 then Some (Ok (FileOut (FErr InvalidParameter) meta buffer m))
                          else Some (Ok (FileOut FSuccess meta buffer (writem m ptr c)))
                        else
                          match alloc (blen c) with
                          | Ok a => Some (Ok (FileOut FSuccess meta (Some a) (writem m a c)))
                          | Err e => Some (Ok (FileOut (FErr e) meta buffer m))
                          | Panic => Some Panic
                          end
                    end
                | _ => Some Panic
                end
            | Some (Err e) => stop e
            | Some Panic => Some Panic
            | None => None
            end
        | Err e => stop e
        | Panic => Some Panic
        end
    | Err e => stop e
    | Panic => Some Panic
    end.

(** file.rs:263-276 [sections_with_extractor]: the sections before flattening. *)
Fixpoint extracted (dbg : bool) (ex : section -> res ferr (list N)) (fuel n : nat) (data : list N) (o : N) : option (res ferr (list section)) :=
  match n with
  | O => None
  | S k =>
      match section_next dbg data o with
      | Stop => Some (Ok [])
      | StepPanic => Some Panic
      | Yield (Ok s) o' =>
          match extract dbg ex fuel s with
          | Some (Ok s') =>
              match o' with
              | Some o' => match extracted dbg ex fuel k data o' with Some (Ok l) => Some (Ok (s' :: l)) | r => r end
              | None => Some (Ok [s'])
              end
          | Some (Err e) => Some (Err e)
          | Some Panic => Some Panic
          | None => None
          end
      | Yield (Err e) _ => Some (Err e)
      | Yield Panic _ => Some Panic
      end
  end.
Definition sections_with_extractor (dbg : bool) (ex : section -> res ferr (list N)) (fuel : nat) (f : file_ref) : option (res ferr (list section)) :=
  match fr_content f with
  | Ok c => match extracted dbg ex fuel fuel c 0 with Some (Ok l) => Some (Ok (flat_map with_subs l)) | r => r end
  | _ => Some Panic
  end.

(** fv.rs:499-534. *)
Definition core_fv_read_section (dbg : bool) (ex : section -> res ferr (list N)) (fuel : nat) (m : mem) (t : table) (this : N) (name : list N)
    (ty inst : N) : option (res efi_error section) :=
  match fv_base t this with
  | Ok b =>
      match lift (new_from_address m b) with
      | Ok v =>
          match select fuel v (named name) 0 with
          | Some (Ok f) =>
              match sections_with_extractor dbg ex fuel f with
              | Some (Ok l) =>
                  match nth_error (filter (fun s => section_type_raw (s_header s) =? ty) l) (N.to_nat inst) with
                  | Some s => Some (Ok s)
                  | None => Some (Err NotFound)
                  end
              | Some (Err e) => Some (Err (efi_of e))
              | Some Panic => Some Panic
              | None => None
              end
          | Some (Err e) => Some (Err e)
          | Some Panic => Some Panic
          | None => None
          end
      | Err e => Some (Err e)
      | Panic => Some Panic
      end
  | Err e => Some (Err e)
  | Panic => Some Panic
  end.

(** What ReadSection leaves. *)
Record section_out := SectionOut { so_status : fstatus; so_size : N; so_buffer : N; so_mem : mem }.

(** fv.rs:430-497. *)
Definition fv_read_section (dbg : bool) (ex : section -> res ferr (list N)) (fuel : nat) (alloc : N -> res efi_error N) (m : mem) (t : table) (this : N)
    (name : list N) (ty inst : N) (buffer size : N) (args : bool) : option (res efi_error section_out) :=
  let stop e := Some (Ok (SectionOut (FErr e) size buffer m)) in
  if negb args then stop InvalidParameter
  else
    match core_fv_read_section dbg ex fuel m t this name ty inst with
    | Some (Ok s) =>
        match lift (try_content s) with
        | Ok c =>
            if buffer =? 0 then
              match alloc (blen c) with
              | Ok a => Some (Ok (SectionOut FSuccess (blen c) a (writem m a c)))
              | Err e => stop e
              | Panic => Some Panic
              end
            else if blen c <? size then Some Panic                  (* &section_data[0..dest_buffer.len()] *)
            else
              Some (Ok (SectionOut (if size <? blen c then FWarnBufferTooSmall else FSuccess) (blen c) buffer
                                   (writem m buffer (firstn (N.to_nat size) c))))
        | Err e => stop e
        | Panic => Some Panic
        end
    | Some (Err e) => stop e
    | Some Panic => Some Panic
    | None => None
    end.

(** fv.rs:545-631: the new key, name, attributes, size and type. *)
Definition fv_get_next_file (fuel : nat) (m : mem) (t : table) (this key ty : N) (args : bool) : option (res efi_error (N * list N * N * N * N)) :=
  if negb args then Some (Err InvalidParameter)
  else if 0xF1 <=? ty then Some (Err NotFound)
  else
    match fv_base t this with
    | Ok b =>
        match lift (new_from_address m b) with
        | Ok v =>
            match select fuel v (fun f => (ty =? 0) || (fh_type (fr_header f) =? ty)) key with
            | Some (Ok f) =>
                let attrs := if N.land (vh_attr (vr_header v)) FVB_MEMORY_MAPPED =? FVB_MEMORY_MAPPED
                             then N.lor (fv_attributes f) FILE_MEMORY_MAPPED else fv_attributes f in
                let attrs := if N.land attrs FVB_MEMORY_MAPPED =? FVB_MEMORY_MAPPED then N.lor attrs FILE_MEMORY_MAPPED else attrs in
                Some (Ok (key + 1, fh_name (fr_header f), attrs, blen (fr_data f), fh_type (fr_header f)))
            | Some (Err e) => Some (Err e)
            | Some Panic => Some Panic
            | None => None
            end
        | Err e => Some (Err e)
        | Panic => Some Panic
        end
    | Err e => Some (Err e)
    | Panic => Some Panic
    end.

(** ** Installing *)

(** fv.rs:683-745: a media node and the end node. *)
Definition piwg_path (name : list N) (sub_type : N) : list N := [4; sub_type; 20; 0] ++ name ++ [0x7F; 0xFF; 4; 0].
(** fv.rs:755-790: the device path of a volume. *)
Definition fv_device_path (dbg : bool) (m : mem) (base : N) : res efi_error (list N) :=
  let* v := lift (new_from_address m base) in
  let* e := lift (vr_ext_header v) in
  match e with
  | Some (e, _) => Ok (piwg_path (eh_name e) 7)
  | None =>
      let* last := uadd dbg base (vh_length (vr_header v)) in
      Ok ([1; 3; 24; 0] ++ le_bytes 4 11 ++ le_bytes 8 base ++ le_bytes 8 last ++ [0x7F; 0xFF; 4; 0])
  end.

(** fv.rs:797-806, with the addresses [p] and [q] of the two new protocols: the table and the device path. *)
Definition install_volume (dbg : bool) (m : mem) (t : table) (base p q : N) : res efi_error (table * list N) :=
  let* path := fv_device_path dbg m base in
  Ok (insert (insert t p (Fvb base)) q (Fv base), path).

(** fv.rs:819-832; each volume with its length by the HOB and the addresses of its protocols. *)
Fixpoint parse_hob_fvs (dbg : bool) (m : mem) (t : table) (hobs : list (N * N * (N * N))) : table * res efi_error unit :=
  match hobs with
  | [] => (t, Ok tt)
  | (base, len, (p, q)) :: l =>
      match lift (volume_ref_new (readm m base (N.to_nat len))) with
      | Ok _ =>
          match install_volume dbg m t base p q with
          | Ok (t', _) => parse_hob_fvs dbg m t' l
          | Err e => (t, Err e)
          | Panic => (t, Panic)
          end
      | Err e => (t, Err e)
      | Panic => (t, Panic)
      end
  end.

(** ** Opening sections *)

(** decompress.rs:61-104 and 107-114: the algorithms are parameters; [tiano] is the GUID of TIANO_DECOMPRESS_SECTION. *)
Definition uefi_extract (tiano : list N) (decompress : bool -> list N -> N -> option (list N)) (s : section) : res ferr (list N) :=
  let run (standard : bool) :=
    let* src := try_content s in
    if blen src <? 8 then Err FDataCorrupt
    else if blen src <? rd src 0 4 then Err FDataCorrupt
    else match decompress standard src (rd src 4 4) with Some l => Ok l | None => Err FDataCorrupt end in
  match s_header s with
  | HGuidDefined g _ _ => if list_eqb (section_definition_guid g) tiano then run false else Err FUnsupported
  | HCompression z _ =>
      if compression_type z =? 0 then try_content s
      else if compression_type z =? 1 then run true
      else Err FUnsupported
  | _ => Err FUnsupported
  end.
Definition core_extract (tiano : list N) (decompress : bool -> list N -> N -> option (list N)) (extra : option (section -> res ferr (list N)))
    (s : section) : res ferr (list N) :=
  match uefi_extract tiano decompress s with
  | Err FUnsupported => match extra with Some ex => ex s | None => Err FUnsupported end
  | r => r
  end.
