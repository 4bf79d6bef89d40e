(** * The reader of firmware volumes in the PI crate

    sdk/patina_pi/src/fw_fs.rs: [FirmwareVolume], [File], [Section] and the
    iterators over them, a second reader beside the one of patina_ffs
    ([Ffs/]).  Bytes are numbers below 256, GUIDs their 16 bytes.  Structures
    are read in place by the code; that the buffer is aligned for them is not
    modelled.  Slices are at most [isize::MAX] long, so sums of lengths do not
    overflow; [dbg] (overflow panics) matters for block arithmetic only. *)

From Verif Require Import Base.Prelude Base.Bytes.
Local Open Scope N_scope.

(** The two [efi::Status] values the readers give of themselves, and any
    other an extractor gives. *)
Inductive perr := InvalidParam | VolumeCorrupted | Other (n : N).

Definition blen {A} (l : list A) : N := N.of_nat (length l).
(** [l[o..]], for [o] within [l]. *)
Definition from (l : list N) (o : N) : list N := skipn (N.to_nat o) l.
(** [&l[a..b]]. *)
Definition cut (l : list N) (a b : N) : res perr (list N) :=
  if (a <=? b) && (b <=? blen l) then Ok (firstn (N.to_nat (b - a)) (from l a)) else Panic.
(** A field of [w] bytes at offset [o] of a structure. *)
Definition fld (l : list N) (o : nat) (w : nat) : N := le_at l o w.
(** The 16 bytes of a GUID at offset [o]. *)
Definition guid_at (l : list N) (o : nat) : list N := firstn 16 (skipn o l).

(** address_helper.rs:29-42 [align_up], [a] a power of two; [x] is below
    [2^63], so there is no overflow. *)
Definition up (x a : N) : N := if N.land x (a - 1) =? 0 then x else N.lor x (a - 1) + 1.

(** [Wrapping<u8>] and [Wrapping<u16>] sums. *)
Definition sum8 (l : list N) : N := fold_left (fun s x => (s + x) mod 256) l 0.
Fixpoint sum16 (l : list N) : N :=
  match l with
  | a :: b :: r => (a + 256 * b + sum16 r) mod 2 ^ 16
  | _ => 0
  end.
(** [Wrapping<u8>::wrapping_sub]. *)
Definition sub8 (a b : N) : N := (a + 256 - b) mod 256.

Definition guid_eq (a b : list N) : bool := if list_eq_dec N.eq_dec a b then true else false.

(** ** Volumes *)

(** fw_fs/ffs/guid.rs:15-20, in memory order. *)
Definition FFS2 : list N := [0x78; 0xe5; 0x8c; 0x8c; 0x3d; 0x8a; 0x1c; 0x4f; 0x99; 0x35; 0x89; 0x61; 0x85; 0xc3; 0x2d; 0xd3].
Definition FFS3 : list N := [0x7a; 0xc0; 0x73; 0x54; 0xcb; 0x3d; 0xca; 0x4d; 0xbd; 0x6f; 0x1e; 0x96; 0x89; 0xe7; 0x34; 0x9a].

(** fw_fs.rs:121-135, 146-158: the volume; the extended header's name and
    bytes. *)
Record pvolume := PV { pv_data : list N; pv_attributes : N; pv_blocks : list (N * N); pv_ext : option (list N * list N);
                       pv_data_offset : N; pv_erase : N }.

(** fw_fs.rs:259-265: the block map's entries. *)
Fixpoint entries (l : list N) (n : nat) : list (N * N) :=
  match n with
  | O => []
  | S m => (fld l 0 4, fld l 4 4) :: entries (skipn 8 l) m
  end.
Definition zero_entry (e : N * N) : bool := (fst e =? 0) && (snd e =? 0).

(** fw_fs.rs:231-249. *)
Definition ext_header (b : list N) (off : N) : res perr (option (list N * list N)) :=
  if off =? 0 then Ok None
  else if blen b <? off + 20 then Err VolumeCorrupted
  else
    let h := from b off in
    let e := off + fld h 16 4 in
    if blen b <? e then Err VolumeCorrupted
    else let* d := cut b off e in Ok (Some (guid_at h 0, d)).

(** fw_fs.rs:166-299 [FirmwareVolume::new]. *)
Definition volume_new (b : list N) : res perr pvolume :=
  if blen b <? 56 then Err InvalidParam
  else
    let hl := fld b 48 2 in
    let fvl := fld b 32 8 in
    let xo := fld b 52 2 in
    if negb (fld b 40 4 =? 0x4856465F) then Err VolumeCorrupted
    else if hl <? 56 then Err VolumeCorrupted
    else if blen b <? hl then Err VolumeCorrupted
    else if negb (N.land hl 1 =? 0) then Err VolumeCorrupted
    else
      let* h := cut b 0 hl in
      if negb (sum16 h =? 0) then Err VolumeCorrupted
      else if fld b 55 1 <? 2 then Err VolumeCorrupted
      else if negb (guid_eq (guid_at b 16) FFS2) && negb (guid_eq (guid_at b 16) FFS3) then Err InvalidParam
      else if fvl <? hl then Err VolumeCorrupted
      else if blen b <? fvl then Err VolumeCorrupted
      else if fvl <? xo then Err VolumeCorrupted
      else
        let* x := ext_header b xo in
        let* m := cut b 56 hl in
        if negb (N.land (blen m) 7 =? 0) then Err VolumeCorrupted
        else
          let es := entries m (N.to_nat (blen m / 8)) in
          match rev es with
          | [] => Err VolumeCorrupted
          | last :: rest =>
              if negb (zero_entry last) then Err VolumeCorrupted
              else
                let es := rev rest in
                match es with
                | [] => Err VolumeCorrupted
                | _ =>
                    if existsb zero_entry es then Err VolumeCorrupted
                    else
                      let off := match x with Some (_, d) => xo + fld (from b xo) 16 4 | None => hl end in
                      Ok (PV b (fld b 44 4) es x (up off 8) (if N.land (fld b 44 4) 0x800 =? 0 then 0 else 0xff))
                end
          end.

(** fw_fs.rs:328-330 [fv_name]. *)
Definition volume_name (v : pvolume) : option (list N) := option_map fst (pv_ext v).

(** [u32] arithmetic. *)
Definition w32 (dbg : bool) (x : N) : res perr N := if dbg && (two32 <=? x) then Panic else Ok (x mod two32).

(** fw_fs.rs:345-352: the loop; gives total blocks, offset, block size. *)
Fixpoint lba_loop (dbg : bool) (m : list (N * N)) (lba total off size : N) : res perr (N * N * N) :=
  match m with
  | [] => Ok (total, off, size)
  | (n, len) :: r =>
      let* total := w32 dbg (total + n) in
      if lba <? total then Ok (total, off, len)
      else
        let* sz := w32 dbg (n * len) in
        let* off := w32 dbg (off + sz) in
        lba_loop dbg r lba total off len
  end.
(** fw_fs.rs:338-360 [lba_info]. *)
Definition lba_info (dbg : bool) (v : pvolume) (lba : N) : res perr (N * N * N) :=
  let* t := lba_loop dbg (pv_blocks v) lba 0 0 0 in
  let '(total, off, size) := t in
  if total <=? lba then Err InvalidParam
  else
    let* p := w32 dbg (lba * size) in
    let* o := w32 dbg (off + p) in
    Ok (o, size, total - lba).

(** ** Files *)

(** fw_fs.rs:409-417. *)
Record pfile := PF { pf_data : list N; pf_name : list N; pf_type : N; pf_attributes : N; pf_header : N; pf_size : N }.

(** fw_fs.rs:434-452: header size and file size. *)
Definition file_size (b : list N) : res perr (N * N) :=
  if N.land (fld b 19 1) 0x01 =? 0 then Ok (24, fld b 20 3)
  else if blen b - 24 <? 8 then Err VolumeCorrupted
  else Ok (32, fld b 24 8).

(** fw_fs.rs:459-475: whether the state byte says the file is complete; the
    erase polarity is taken from its top bit. *)
Definition state_valid (st : N) : bool :=
  if N.land st 0x80 =? 0 then N.land st 0xFC =? 0x04 else N.land (255 - st) 0xFC =? 0x04.

(** fw_fs.rs:424-507 [File::new]. *)
Definition file_new (b : list N) : res perr pfile :=
  if blen b <? 24 then Err InvalidParam
  else
    let* hs := file_size b in
    let '(hsize, size) := hs in
    if blen b <? size then Err VolumeCorrupted
    else if negb (state_valid (fld b 23 1)) then Err VolumeCorrupted
    else
      let* h := cut b 0 hsize in
      if negb (sub8 (sub8 (sum8 h) (fld b 17 1)) (fld b 23 1) =? 0) then Err VolumeCorrupted
      else
        let* _ :=
          (if negb (N.land (fld b 19 1) 0x40 =? 0)
           then let* d := cut b hsize size in if sum8 d =? 0 then Ok tt else Err VolumeCorrupted
           else if fld b 17 1 =? 0xAA then Ok tt else Err VolumeCorrupted) in
        let* d := cut b 0 size in
        Ok (PF d (guid_at b 0) (fld b 18 1) (fld b 19 1) hsize size).

(** fw_fs.rs:582-584 [content]. *)
Definition file_content (f : pfile) : res perr (list N) := cut (pf_data f) (pf_header f) (pf_size f).

(** What an iterator gives: items, or an error. *)
Inductive item (A : Type) := Got (a : A) | Failed (e : perr).
Arguments Got {A} a. Arguments Failed {A} e.
(** How taking everything from it ends: it says it has no more, it panics, or
    it has not ended within the steps allowed. *)
Inductive ending := Done | Crash | Running.

(** fw_fs.rs:839-865 [FvFileIterator::next], called until it gives [None]:
    an error is given and is the last item. *)
Fixpoint files_from (fuel : nat) (b : list N) (erase off : N) : list (item pfile) * ending :=
  match fuel with
  | O => ([], Running)
  | S k =>
      if blen b <? off then ([], Done)
      else if blen b - off <? 24 then ([], Done)
      else if forallb (fun x => x =? erase) (firstn 24 (from b off)) then ([], Done)
      else
        match file_new (from b off) with
        | Panic => ([], Crash)
        | Err e => ([Failed e], Done)
        | Ok f => let '(l, e) := files_from k b erase (up (off + pf_size f) 8) in (Got f :: l, e)
        end
  end.

(** fw_fs.rs:333-335 [file_iter]: slicing the data from [data_offset]. *)
Definition volume_files (fuel : nat) (v : pvolume) : list (item pfile) * ending :=
  if blen (pv_data v) <? pv_data_offset v then ([], Crash)
  else files_from fuel (from (pv_data v) (pv_data_offset v)) (pv_erase v) 0.

(** ** Sections *)

(** fw_fs.rs:618-631 [SectionMetaData]. *)
Inductive meta :=
| MNone
| MCompression (uncompressed_length : N) (compression_type : N)
| MGuidDefined (guid : list N) (data_offset : N) (attributes : N) (fields : list N)
| MVersion (build_number : N)
| MFreeform (guid : list N).

(** fw_fs.rs:651-657. *)
Record section := Sec { sec_type : N; sec_meta : meta; sec_data : list N; sec_size : N }.

(** fw_fs.rs:675-691: section size and the start of its content. *)
Definition section_size (b : list N) : res perr (N * N) :=
  if forallb (fun x => x =? 0xff) (firstn 3 b)
  then if blen b <? 8 then Err VolumeCorrupted else Ok (fld b 4 4, 8)
  else Ok (fld b 0 3, 4).

(** fw_fs.rs:664-764 [Section::new]; Compression is packed (5 bytes). *)
Definition section_new (b : list N) : res perr section :=
  if blen b <? 4 then Err InvalidParam
  else
    let ty := fld b 3 1 in
    let* so := section_size b in
    let '(size, o) := so in
    let h := from b o in
    if ty =? 0x01 then
      if blen b <? o + 5 then Err VolumeCorrupted
      else let* d := cut b (o + 5) size in Ok (Sec ty (MCompression (fld h 0 4) (fld h 4 1)) d size)
    else if ty =? 0x02 then
      if blen b <? o + 20 then Err VolumeCorrupted
      else
        let dof := fld h 16 2 in
        if blen b <? dof then Err VolumeCorrupted
        else
          let* x := cut b (o + 20) dof in
          let* d := cut b dof size in
          Ok (Sec ty (MGuidDefined (guid_at h 0) dof (fld h 18 2) x) d size)
    else if ty =? 0x14 then
      if blen b <? o + 2 then Err VolumeCorrupted
      else let* d := cut b (o + 2) size in Ok (Sec ty (MVersion (fld h 0 2)) d size)
    else if ty =? 0x18 then
      if blen b <? o + 16 then Err VolumeCorrupted
      else let* d := cut b (o + 16) size in Ok (Sec ty (MFreeform (guid_at h 0)) d size)
    else if 0xC0 <=? ty then Ok (Sec ty MNone b size)
    else let* d := cut b o size in Ok (Sec ty MNone d size).

(** fw_fs.rs:794-797 [is_encapsulation]. *)
Definition is_encapsulation (s : section) : bool := (sec_type s =? 0x01) || (sec_type s =? 0x02).

(** fw_fs.rs:92-110 [SectionExtractor]: any function of the section. *)
Definition extractor := section -> res perr (list N).
(** fw_fs.rs:113-119. *)
Definition null_extractor : extractor := fun _ => Ok [].

Definition failed {A} (i : item A) : bool := match i with Failed _ => true | Got _ => false end.

(** fw_fs.rs:891-932 [FileSectionIterator::next], called until it gives
    [None].  The sections within an encapsulation section are all collected
    before that section is given; they follow it; an error among them is the
    last item. *)
Fixpoint sections_from (fuel : nat) (x : extractor) (b : list N) (off : N) : list (item section) * ending :=
  match fuel with
  | O => ([], Running)
  | S k =>
      if blen b <? off then ([], Done)
      else if blen b - off <? 4 then ([], Done)
      else
        match section_new (from b off) with
        | Panic => ([], Crash)
        | Err e => ([Failed e], Done)
        | Ok s =>
            let next := off + up (sec_size s) 4 in
            if is_encapsulation s then
              match x s with
              | Panic => ([], Crash)
              | Err e => ([Got s; Failed e], Done)
              | Ok inner =>
                  match sections_from k x inner 0 with
                  | (l, Done) =>
                      if existsb failed l then (Got s :: l, Done)
                      else let '(r, e) := sections_from k x b next in (Got s :: l ++ r, e)
                  | (_, e) => ([], e)
                  end
              end
            else let '(r, e) := sections_from k x b next in (Got s :: r, e)
        end
  end.

(** fw_fs.rs:597-602 [section_iter_with_extractor]: slicing the content. *)
Definition file_sections (fuel : nat) (x : extractor) (f : pfile) : list (item section) * ending :=
  match file_content f with
  | Ok c => sections_from fuel x c 0
  | _ => ([], Crash)
  end.
