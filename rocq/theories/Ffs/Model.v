(** * Firmware file system: sections, files, volumes

    sdk/patina_ffs/src/{section,file,volume}.rs with the on-disk structures of
    sdk/patina_pi/src/fw_fs/.  Bytes are numbers below 256, GUIDs their 16
    bytes.  [dbg] is the debug build (overflow panics).  Slices are at most
    [isize::MAX] long, so sums of lengths do not overflow. *)

From Verif Require Import Base.Prelude Base.Bytes Align.Model.
Local Open Scope N_scope.

Definition blen {A} (l : list A) : N := N.of_nat (length l).

(** err.rs:14-36. *)
Inductive ferr :=
| FInvalidHeader | FInvalidBlockMap | FInvalidParameter | FUnsupported | FInvalidState | FDataCorrupt | FNotComposed
| FNotExtracted | FNotLeaf | FComposeFailed.

(** [&l[a..b]]. *)
Definition slice (l : list N) (a b : N) : res ferr (list N) :=
  if (a <=? b) && (b <=? blen l) then Ok (firstn (N.to_nat (b - a)) (skipn (N.to_nat a) l)) else Panic.

(** An integer of [w] bytes at offset [o] (read_unaligned of a field). *)
Definition rd (l : list N) (o : N) (w : nat) : N := le_at l (N.to_nat o) w.
(** The [n] bytes at offset [o]. *)
Definition bytes_at (l : list N) (o n : N) : list N := firstn (N.to_nat n) (skipn (N.to_nat o) l).

(** [u32::try_from(usize)]. *)
Definition to_u32 (x : N) (e : ferr) : res ferr N := if x <? two32 then Ok x else Err e.

(** ** section.rs *)

(** fw_fs/ffs/section.rs header structures: Compression is packed. *)
Record compression := Compression { uncompressed_length : N; compression_type : N }.
Record guid_defined := GuidDefined { section_definition_guid : list N; data_offset : N; gd_attributes : N }.

(** section.rs:45-61 SectionHeader; the last number is the content size. *)
Inductive sheader :=
| HPad (n : N)
| HStandard (ty : N) (n : N)
| HCompression (c : compression) (n : N)
| HGuidDefined (g : guid_defined) (items : list N) (n : N)
| HVersion (build_number : N) (n : N)
| HFreeform (guid : list N) (n : N).

Definition MAX_STANDARD_SECTION_SIZE : N := 0x1000000.
Definition COMPRESSION : N := 1.
Definition GUID_DEFINED : N := 2.
Definition VERSION : N := 0x14.
Definition FREEFORM_SUBTYPE_GUID : N := 0x18.
Definition FFS_PAD : N := 0xF0.

(** section.rs:94-103. *)
Definition content_size (h : sheader) : N :=
  match h with
  | HPad n | HStandard _ n | HCompression _ n | HGuidDefined _ _ n | HVersion _ n | HFreeform _ n => n
  end.
(** section.rs:78-90; [size] already fits. *)
Definition with_content_size (h : sheader) (n : N) : sheader :=
  match h with
  | HPad _ => HPad n | HStandard t _ => HStandard t n | HCompression c _ => HCompression c n
  | HGuidDefined g i _ => HGuidDefined g i n | HVersion v _ => HVersion v n | HFreeform g _ => HFreeform g n
  end.
(** section.rs:106-115. *)
Definition section_type_raw (h : sheader) : N :=
  match h with
  | HPad _ => FFS_PAD | HStandard t _ => t | HCompression _ _ => COMPRESSION | HGuidDefined _ _ _ => GUID_DEFINED
  | HVersion _ _ => VERSION | HFreeform _ _ => FREEFORM_SUBTYPE_GUID
  end.

(** section.rs:147-176: the type-specific header bytes. *)
Definition header_data (h : sheader) : list N :=
  match h with
  | HPad _ | HStandard _ _ => []
  | HCompression c _ => le_bytes 4 (uncompressed_length c) ++ [compression_type c]
  | HGuidDefined g items _ => section_definition_guid g ++ le_bytes 2 (data_offset g) ++ le_bytes 2 (gd_attributes g) ++ items
  | HVersion v _ => le_bytes 2 v
  | HFreeform g _ => g
  end.

(** section.rs:146-199 SectionHeader::serialize; 193 adds in u32. *)
Definition serialize_header (dbg : bool) (h : sheader) : res ferr (list N) :=
  match h with
  | HPad _ => Ok []
  | _ =>
      let section_size := 4 + blen (header_data h) + content_size h in
      if section_size <? MAX_STANDARD_SECTION_SIZE
      then Ok (le_bytes 3 section_size ++ [section_type_raw h] ++ header_data h)
      else
        let ext := section_size mod two32 + 4 in
        if dbg && (two32 <=? ext) then Panic
        else Ok ([0xff; 0xff; 0xff] ++ [section_type_raw h] ++ le_bytes 4 (ext mod two32) ++ header_data h)
  end.

(** section.rs:66-73. *)
Definition total_section_size (dbg : bool) (h : sheader) : res ferr N :=
  let* b := serialize_header dbg h in Ok (blen b + content_size h).

(** section.rs:202-247; the two kinds of data. *)
Inductive section := Section (header : sheader) (data : sdata) (dirty : bool)
with sdata := Leaf (bytes : list N) | Encapsulation (sub_sections : list section) (bytes : list N) (extracted : bool).

Definition s_header (s : section) : sheader := match s with Section h _ _ => h end.
Definition s_bytes (s : section) : list N :=
  match s with Section _ (Leaf b) _ => b | Section _ (Encapsulation _ b _) _ => b end.
Definition s_subs (s : section) : list section :=
  match s with Section _ (Leaf _) _ => [] | Section _ (Encapsulation l _ _) _ => l end.

(** section.rs:419-425. *)
Fixpoint dirty (s : section) : bool :=
  match s with
  | Section _ (Encapsulation subs _ true) d => d || existsb dirty subs
  | Section _ _ d => d
  end.

(** section.rs:394-405. *)
Definition finish_section (buffer : list N) (h : sheader) (content_offset section_size : N) : res ferr section :=
  let* d := slice buffer content_offset section_size in
  Ok (Section h (match h with HCompression _ _ | HGuidDefined _ _ _ => Encapsulation [] d false | _ => Leaf d end) false).

(** [(section_size - x).try_into()], section.rs:320 and alike. *)
Definition content_from (dbg : bool) (section_size x : N) : res ferr N :=
  let* n := usub dbg section_size x in to_u32 n FInvalidHeader.

(** section.rs:281-301: the section's size and where its content starts. *)
Definition read_size (buffer : list N) : res ferr (N * N) :=
  let size3 := bytes_at buffer 0 3 in
  if forallb (N.eqb 0xff) size3
  then if blen buffer <? 8 then Err FInvalidHeader else Ok (rd buffer 4 4, 8)
  else Ok (le_val size3, 4).

(** section.rs:308-405: [off] is section_data_offset. *)
Definition parse_typed (dbg : bool) (buffer : list N) (ty section_size off : N) : res ferr section :=
  if ty =? COMPRESSION then
    if blen buffer <? off + 5 then Err FInvalidHeader
    else
      let* n := content_from dbg section_size (off + 5) in
      finish_section buffer (HCompression (Compression (rd buffer off 4) (rd buffer (off + 4) 1)) n) (off + 5) section_size
  else if ty =? GUID_DEFINED then
    if blen buffer <? off + 20 then Err FInvalidHeader
    else
      let g := GuidDefined (bytes_at buffer off 16) (rd buffer (off + 16) 2) (rd buffer (off + 18) 2) in
      if blen buffer <? data_offset g then Err FInvalidHeader
      else
        let* items := slice buffer (off + 20) (data_offset g) in
        let* n := content_from dbg section_size (data_offset g) in
        finish_section buffer (HGuidDefined g items n) (data_offset g) section_size
  else if ty =? VERSION then
    if blen buffer <? off + 2 then Err FInvalidHeader
    else
      let* n := content_from dbg section_size (off + 2) in
      finish_section buffer (HVersion (rd buffer off 2) n) (off + 2) section_size
  else if ty =? FREEFORM_SUBTYPE_GUID then
    if blen buffer <? off + 16 then Err FInvalidHeader
    else
      let* n := content_from dbg section_size (off + 16) in
      finish_section buffer (HFreeform (bytes_at buffer off 16) n) (off + 16) section_size
  else
    let* n := content_from dbg section_size off in
    finish_section buffer (HStandard ty n) off section_size.

(** section.rs:272-406 Section::new_from_buffer. *)
Definition new_from_buffer (dbg : bool) (buffer : list N) : res ferr section :=
  if blen buffer <? 4 then Err FInvalidHeader
  else
    let* (section_size, off) := read_size buffer in
    if blen buffer <? section_size then Err FInvalidHeader
    else parse_typed dbg buffer (rd buffer 3 1) section_size off.

(** section.rs:256-265. *)
Definition new_from_header_with_data (dbg : bool) (h : sheader) (data : list N) : res ferr section :=
  match h with
  | HPad _ => Ok (Section h (Leaf data) false)
  | _ => let* b := serialize_header dbg h in new_from_buffer dbg (b ++ data)
  end.

(** section.rs:430-435. *)
Definition section_size (dbg : bool) (s : section) : res ferr N :=
  if dirty s then Err FNotComposed else total_section_size dbg (s_header s).

(** section.rs:450-459. *)
Definition set_section_data (s : section) (data : list N) : res ferr section :=
  match s with
  | Section h (Leaf _) _ =>
      let* n := to_u32 (blen data) FInvalidParameter in Ok (Section (with_content_size h n) (Leaf data) true)
  | _ => Err FNotLeaf
  end.

(** section.rs:548-556. *)
Definition try_content (s : section) : res ferr (list N) := if dirty s then Err FNotComposed else Ok (s_bytes s).

(** section.rs:533-543. *)
Definition serialize_section (dbg : bool) (s : section) : res ferr (list N) :=
  if dirty s then Err FNotComposed
  else let* b := serialize_header dbg (s_header s) in Ok (b ++ s_bytes s).

(** section.rs:464-497 compose, for a composer that succeeds or fails as it
    likes.  On failure the section is left half done; the model gives only
    the error.  487 stores the content; an extracted flag stays. *)
Fixpoint compose (composer : section -> res ferr (sheader * list N)) (s : section) : res ferr section :=
  match s with
  | Section h (Leaf b) _ =>
      let* n := to_u32 (blen b) FInvalidParameter in Ok (Section (with_content_size h n) (Leaf b) false)
  | Section h (Encapsulation subs b x) _ =>
      let* subs' :=
        (fix go (l : list section) : res ferr (list section) :=
           match l with
           | [] => Ok []
           | s :: l' => let* s' := compose composer s in let* r := go l' in Ok (s' :: r)
           end) subs in
      let* (h', content) := composer (Section h (Encapsulation subs' b x) false) in
      let* n := to_u32 (blen content) FInvalidParameter in
      Ok (Section (with_content_size h' n) (Encapsulation subs' content x) false)
  end.

(** section.rs:608-649 SectionIterator: one call of [next].  [Stop] ends the
    iteration, [Yield] gives an item and the new offset ([None]: after an
    error). *)
Inductive step (A : Type) := Stop | Yield (item : res ferr A) (next : option N) | StepPanic.
Arguments Stop {A}.
Arguments Yield {A} item next.
Arguments StepPanic {A}.

Definition section_next (dbg : bool) (data : list N) (next_offset : N) : step section :=
  if blen data <=? next_offset then Stop
  else
    match new_from_buffer dbg (skipn (N.to_nat next_offset) data) with
    | Ok s =>
        match section_size dbg s with
        | Ok size =>
            match align_up 64 size 4 with
            | Ok a => Yield (Ok s) (Some (next_offset + a))
            | Err _ => Yield (Err FDataCorrupt) None
            | Panic => StepPanic
            end
        | _ => StepPanic                                            (* expect *)
        end
    | Err e => Yield (Err e) None
    | Panic => StepPanic
    end.

(** Iterating to the end, collecting into [Result<Vec<_>, _>]: the first
    error wins.  [None]: more than [fuel] steps. *)
Fixpoint collect {A} (next : N -> step A) (fuel : nat) (o : N) : option (res ferr (list A)) :=
  match fuel with
  | O => None
  | S f =>
      match next o with
      | Stop => Some (Ok [])
      | StepPanic => Some Panic
      | Yield (Ok a) (Some o') =>
          match collect next f o' with
          | Some (Ok l) => Some (Ok (a :: l))
          | r => r
          end
      | Yield (Ok a) None => Some (Ok [a])
      | Yield (Err e) _ => Some (Err e)
      | Yield Panic _ => Some Panic
      end
  end.

Definition sections_of (dbg : bool) (fuel : nat) (data : list N) : option (res ferr (list section)) :=
  collect (section_next dbg data) fuel 0.

(** section.rs:503-528 extract.  [None]: the nesting or a list is deeper than
    [fuel]. *)
Fixpoint extract (dbg : bool) (extractor : section -> res ferr (list N)) (fuel : nat) (s : section) : option (res ferr section) :=
  match fuel with
  | O => None
  | S f =>
      match s with
      | Section h (Encapsulation _ b false) d =>
          match (match extractor s with Err FUnsupported => Ok [] | r => r end) with
          | Ok bytes =>
              match sections_of dbg f bytes with
              | Some (Ok l) =>
                  match (fix go (l : list section) : option (res ferr (list section)) :=
                           match l with
                           | [] => Some (Ok [])
                           | s :: l' =>
                               match extract dbg extractor f s with
                               | Some (Ok s') => match go l' with Some (Ok r) => Some (Ok (s' :: r)) | r => r end
                               | Some (Err e) => Some (Err e)
                               | Some Panic => Some Panic
                               | None => None
                               end
                           end) l with
                  | Some (Ok l') => Some (Ok (Section h (Encapsulation l' b true) d))
                  | Some (Err e) => Some (Err e)
                  | Some Panic => Some Panic
                  | None => None
                  end
              | Some (Err e) => Some (Err e)
              | Some Panic => Some Panic
              | None => None
              end
          | Err e => Some (Err e)
          | Panic => Some Panic
          end
      | _ => Some (Ok s)
      end
  end.

(** ** file.rs *)

(** fw_fs/ffs/file.rs:120-141 Header and Header2. *)
Record fheader := FHeader { fh_name : list N; fh_check_header : N; fh_check_file : N; fh_type : N; fh_attr : N; fh_size : N; fh_state : N }.
Definition fheader_bytes (h : fheader) : list N :=
  fh_name h ++ [fh_check_header h; fh_check_file h; fh_type h; fh_attr h] ++ le_bytes 3 (fh_size h) ++ [fh_state h].
Definition read_fheader (b : list N) : fheader :=
  FHeader (bytes_at b 0 16) (rd b 16 1) (rd b 17 1) (rd b 18 1) (rd b 19 1) (rd b 20 3) (rd b 23 1).

Definition LARGE_FILE : N := 0x01.
Definition DATA_ALIGNMENT_2 : N := 0x02.
Definition FIXED : N := 0x04.
Definition DATA_ALIGNMENT : N := 0x38.
Definition CHECKSUM : N := 0x40.
Definition DATA_VALID : N := 0x04.

(** Wrapping byte sum. *)
Definition sum8 (l : list N) : N := fold_left (fun s v => (s + v) mod 256) l 0.
(** [a.wrapping_sub(b)] on bytes. *)
Definition sub8 (a b : N) : N := (a + 256 - b) mod 256.

(** file.rs:36-42 FileRef. *)
Record file_ref := FileRef { fr_data : list N; fr_header : fheader; fr_polarity : bool; fr_size : N; fr_content_offset : N }.

(** file.rs:75-150 FileRef::new. *)
Definition file_ref_new (buffer : list N) : res ferr file_ref :=
  if blen buffer <? 24 then Err FInvalidHeader
  else
    let header := read_fheader buffer in
    let* (size, content_offset) :=
      if N.land (fh_attr header) LARGE_FILE =? 0 then Ok (fh_size header, 24)
      else if blen buffer <? 32 then Err FInvalidHeader else Ok (rd buffer 24 8, 32) in
    if blen buffer <? size then Err FInvalidHeader
    else
      let polarity := negb (N.land (fh_state header) 0x80 =? 0) in
      let state := if polarity then 255 - fh_state header else fh_state header in
      if negb (N.land state 0xFC =? DATA_VALID) then Err FInvalidState
      else
        let sum := sum8 (bytes_at buffer 0 content_offset) in
        let sum := sub8 sum (fh_state header) in
        let sum := sub8 sum (fh_check_file header) in
        if negb (sum =? 0) then Err FInvalidHeader
        else
          let* _ :=
            if N.land (fh_attr header) CHECKSUM =? 0
            then if fh_check_file header =? 0xAA then Ok tt else Err FInvalidHeader
            else let* d := slice buffer content_offset size in
                 if sum8 d =? 0 then Ok tt else Err FDataCorrupt in
          Ok (FileRef (bytes_at buffer 0 size) header polarity size content_offset).

(** file.rs:168-170. *)
Definition fr_content (f : file_ref) : res ferr (list N) := slice (fr_data f) (fr_content_offset f) (blen (fr_data f)).

(** file.rs:188-211 fv_attributes; 204-205 cannot fail, as the field has
    three bits. *)
Definition fv_attributes (f : file_ref) : N :=
  let a := fh_attr (fr_header f) in
  let data_alignment := N.shiftr (N.land a DATA_ALIGNMENT) 3 in
  let base :=
    if N.land a DATA_ALIGNMENT_2 =? DATA_ALIGNMENT_2 then 17 + data_alignment
    else nth (N.to_nat data_alignment) [0; 4; 7; 9; 10; 12; 15; 16] 0 in
  if negb (N.land a FIXED =? 0) then N.lor base 0x100 else base.

(** [sections()] of a section, section.rs:568-576. *)
Definition with_subs (s : section) : list section := s :: s_subs s.

(** file.rs:221-225. *)
Definition fr_sections (dbg : bool) (fuel : nat) (f : file_ref) : option (res ferr (list section)) :=
  match fr_content f with
  | Ok c =>
      match sections_of dbg fuel c with
      | Some (Ok l) => Some (Ok (flat_map with_subs l))
      | r => r
      end
  | Err e => Some (Err e)
  | Panic => Some Panic
  end.

(** file.rs:296-302 File. *)
Record file := File { f_name : list N; f_type : N; f_attr : N; f_polarity : bool; f_sections : list section }.

(** file.rs:306-308. *)
Definition file_new (name : list N) (ty : N) : file := File name ty 0 true [].

Definition pad4 (l : list N) : list N := l ++ repeat 0 (N.to_nat (if blen l mod 4 =? 0 then 0 else 4 - blen l mod 4)).

(** file.rs:341-354. *)
Fixpoint file_content (dbg : bool) (content : list N) (l : list section) : res ferr (list N) :=
  match l with
  | [] => Ok content
  | s :: l' =>
      let* b := serialize_section dbg s in
      let content := content ++ b in
      file_content dbg (match l' with [] => content | _ => pad4 content end) l'
  end.

(** file.rs:401-406 and 442-447. *)
Definition file_state (polarity : bool) : N := if polarity then 0xF8 else 0x07.

(** file.rs:371-452 serialize_header2 and serialize_header: checksums over
    the header with the checks and the state zero. *)
Definition file_check (f : file) (content : list N) : N :=
  if negb (N.land (f_attr f) CHECKSUM =? 0) then sub8 0 (sum8 content) else 0xaa.
Definition serialize_file_header2 (f : file) (content : list N) : list N :=
  let ext := le_bytes 8 (32 + blen content) in
  let h0 := FHeader (f_name f) 0 0 (f_type f) (N.lor (f_attr f) LARGE_FILE) 0 0 in
  fheader_bytes (FHeader (f_name f) (sub8 0 (sum8 (fheader_bytes h0 ++ ext))) (file_check f content) (f_type f)
                         (N.lor (f_attr f) LARGE_FILE) 0 (file_state (f_polarity f))) ++ ext.
Definition serialize_file_header (f : file) (content : list N) : list N :=
  let size := 24 + blen content in
  let h0 := FHeader (f_name f) 0 0 (f_type f) (f_attr f) size 0 in
  fheader_bytes (FHeader (f_name f) (sub8 0 (sum8 (fheader_bytes h0))) (file_check f content) (f_type f) (f_attr f) size
                         (file_state (f_polarity f))).

(** file.rs:338-368 File::serialize. *)
Definition serialize_file (dbg : bool) (f : file) : res ferr (list N) :=
  let* content := file_content dbg [] (f_sections f) in
  Ok ((if negb (N.land (f_attr f) LARGE_FILE =? 0) || (0xffffff - 24 <? blen content)
       then serialize_file_header2 f content else serialize_file_header f content) ++ content).

(** file.rs:478-503 content_offset: the lengths are padded one by one. *)
Fixpoint sections_length (dbg : bool) (n : N) (l : list section) : res ferr N :=
  match l with
  | [] => Ok n
  | s :: l' =>
      let* b := serialize_section dbg s in
      let pad := match l' with [] => 0 | _ => if blen b mod 4 =? 0 then 0 else 4 - blen b mod 4 end in
      sections_length dbg (n + blen b + pad) l'
  end.
Definition file_content_offset (dbg : bool) (f : file) : res ferr N :=
  if negb (N.land (f_attr f) LARGE_FILE =? 0) then Ok 32
  else let* n := sections_length dbg 0 (f_sections f) in Ok (if 0xffffff <? n + 24 then 32 else 24).

(** file.rs:630-642 TryFrom<FileRef>. *)
Definition file_of_ref (dbg : bool) (fuel : nat) (r : file_ref) : option (res ferr file) :=
  match fr_sections dbg fuel r with
  | Some (Ok l) => Some (Ok (File (fh_name (fr_header r)) (fh_type (fr_header r)) (fh_attr (fr_header r)) (fr_polarity r) l))
  | Some (Err e) => Some (Err e)
  | Some Panic => Some Panic
  | None => None
  end.

(** ** volume.rs *)

(** fw_fs/fv.rs: Header (the block map follows), BlockMapEntry, ExtHeader. *)
Record vheader := VHeader { vh_zero : list N; vh_guid : list N; vh_length : N; vh_signature : N; vh_attr : N; vh_header_length : N;
                            vh_checksum : N; vh_ext_offset : N; vh_reserved : N; vh_revision : N }.
Definition vheader_bytes (h : vheader) : list N :=
  vh_zero h ++ vh_guid h ++ le_bytes 8 (vh_length h) ++ le_bytes 4 (vh_signature h) ++ le_bytes 4 (vh_attr h) ++
  le_bytes 2 (vh_header_length h) ++ le_bytes 2 (vh_checksum h) ++ le_bytes 2 (vh_ext_offset h) ++ [vh_reserved h] ++ [vh_revision h].
Definition read_vheader (b : list N) : vheader :=
  VHeader (bytes_at b 0 16) (bytes_at b 16 16) (rd b 32 8) (rd b 40 4) (rd b 44 4) (rd b 48 2) (rd b 50 2) (rd b 52 2) (rd b 54 1) (rd b 55 1).
Record ext_header := ExtHeader { eh_name : list N; eh_size : N }.
Definition ext_header_bytes (e : ext_header) : list N := eh_name e ++ le_bytes 4 (eh_size e).
Definition block := (N * N)%type.                                   (* num_blocks, length *)
Definition block_bytes (b : block) : list N := le_bytes 4 (fst b) ++ le_bytes 4 (snd b).

(** "_FVH", little endian. *)
Definition FVH : N := 0x4856465F.
Definition FFS_REVISION : N := 2.
Definition FFS2_GUID : list N := [0x78;0xe5;0x8c;0x8c;0x3d;0x8a;0x1c;0x4f;0x99;0x35;0x89;0x61;0x85;0xc3;0x2d;0xd3].
Definition FFS3_GUID : list N := [0x7a;0xc0;0x73;0x54;0xcb;0x3d;0xca;0x4d;0xbd;0x6f;0x1e;0x96;0x89;0xe7;0x34;0x9a].
Definition ERASE_POLARITY : N := 0x800.
Definition FFS_V2_MAX_FILE_SIZE : N := 0x1000000.

Fixpoint list_eqb (a b : list N) : bool :=
  match a, b with [], [] => true | x :: a', y :: b' => (x =? y) && list_eqb a' b' | _, _ => false end.

(** [chunks_exact(2)] folded with a wrapping 16-bit sum. *)
Fixpoint sum16 (s : N) (l : list N) : N :=
  match l with a :: b :: l' => sum16 ((s + (a + 256 * b)) mod two16) l' | _ => s end.

(** [chunks_exact(8)] as block map entries. *)
Fixpoint read_blocks (l : list N) : list block :=
  match l with
  | a0 :: a1 :: a2 :: a3 :: b0 :: b1 :: b2 :: b3 :: l' => (le_val [a0; a1; a2; a3], le_val [b0; b1; b2; b3]) :: read_blocks l'
  | _ => []
  end.
Definition is_zero_block (b : block) : bool := (fst b =? 0) && (snd b =? 0).

(** volume.rs:41-47. *)
Record volume_ref := VolumeRef { vr_data : list N; vr_header : vheader; vr_ext : option ext_header; vr_blocks : list block; vr_content_offset : N }.

(** volume.rs:68-205 VolumeRef::new. *)
Definition volume_ref_new (buffer : list N) : res ferr volume_ref :=
  if blen buffer <? 56 then Err FInvalidHeader
  else
    let h := read_vheader buffer in
    if negb (vh_signature h =? FVH) then Err FInvalidHeader
    else if vh_header_length h <? 56 then Err FInvalidHeader
    else if blen buffer <? vh_header_length h then Err FInvalidHeader
    else if negb (N.land (vh_header_length h) 1 =? 0) then Err FInvalidHeader
    else if negb (sum16 0 (bytes_at buffer 0 (vh_header_length h)) =? 0) then Err FInvalidHeader
    else if vh_revision h <? FFS_REVISION then Err FUnsupported
    else if negb (list_eqb (vh_guid h) FFS2_GUID) && negb (list_eqb (vh_guid h) FFS3_GUID) then Err FUnsupported
    else if vh_length h <? vh_header_length h then Err FInvalidHeader
    else if blen buffer <? vh_length h then Err FInvalidHeader
    else if vh_length h <? vh_ext_offset h then Err FInvalidHeader
    else
      let* ext :=
        if negb (vh_ext_offset h =? 0) then
          if blen buffer <? vh_ext_offset h + 20 then Err FInvalidHeader
          else
            let e := ExtHeader (bytes_at buffer (vh_ext_offset h) 16) (rd buffer (vh_ext_offset h + 16) 4) in
            if blen buffer <? vh_ext_offset h + eh_size e then Err FInvalidHeader else Ok (Some e)
        else Ok None in
      let* map_bytes := slice buffer 56 (vh_header_length h) in
      if negb (N.land (blen map_bytes) 7 =? 0) then Err FInvalidHeader
      else
        let blocks := read_blocks map_bytes in
        match rev blocks with
        | [] => Err FInvalidBlockMap
        | z :: r =>
            if negb (is_zero_block z) then Err FInvalidBlockMap
            else
              let blocks := rev r in
              match blocks with
              | [] => Err FInvalidBlockMap
              | _ =>
                  if existsb is_zero_block blocks then Err FInvalidBlockMap
                  else
                    let o := match ext with Some e => vh_ext_offset h + eh_size e | None => vh_header_length h end in
                    match align_up 64 o 8 with
                    | Ok o => Ok (VolumeRef buffer h ext blocks o)
                    | _ => Err FInvalidHeader
                    end
              end
        end.

(** volume.rs:242-244. *)
Definition erase_byte (attr : N) : N := if negb (N.land attr ERASE_POLARITY =? 0) then 0xff else 0.

(** volume.rs:249-257 ext_header. *)
Definition vr_ext_header (v : volume_ref) : res ferr (option (ext_header * list N)) :=
  match vr_ext v with
  | None => Ok None
  | Some e =>
      let start := vh_ext_offset (vr_header v) + 20 in
      let* d := slice (vr_data v) start (vh_ext_offset (vr_header v) + eh_size e) in Ok (Some (e, d))
  end.

(** u32 arithmetic: overflow panics or wraps. *)
Definition op32 (dbg : bool) (x : N) : res ferr N := if x <? two32 then Ok x else if dbg then Panic else Ok (x mod two32).

(** volume.rs:284-306 lba_info; the loop gives total_blocks, offset and
    block_size at its end. *)
Fixpoint lba_loop (dbg : bool) (lba total offset size : N) (l : list block) : res ferr (N * N * N) :=
  match l with
  | [] => Ok (total, offset, size)
  | (n, len) :: l' =>
      let* total := op32 dbg (total + n) in
      if lba <? total then Ok (total, offset, len)
      else let* m := op32 dbg (n * len) in let* offset := op32 dbg (offset + m) in lba_loop dbg lba total offset len l'
  end.
Definition lba_info (dbg : bool) (v : volume_ref) (lba : N) : res ferr (N * N * N) :=
  let* (total, offset, size) := lba_loop dbg lba 0 0 0 (vr_blocks v) in
  if total <=? lba then Err FInvalidParameter
  else let* m := op32 dbg (lba * size) in let* o := op32 dbg (offset + m) in Ok (o, size, total - lba).

(** volume.rs:373-410 FileRefIter::next. *)
Definition file_next (data : list N) (erase : N) (next_offset : N) : step file_ref :=
  if blen data <? next_offset then Stop
  else
    let rest := skipn (N.to_nat next_offset) data in
    if blen rest <? 24 then Stop
    else if forallb (N.eqb erase) (bytes_at rest 0 24) then Stop
    else
      match file_ref_new rest with
      | Ok f =>
          match align_up 64 (next_offset + fr_size f) 8 with
          | Ok o => Yield (Ok f) (Some o)
          | _ => Yield (Err FDataCorrupt) None
          end
      | Err e => Yield (Err e) None
      | Panic => StepPanic
      end.

(** volume.rs:321-329 files, up to the first error. *)
Definition vr_files (fuel : nat) (v : volume_ref) : option (res ferr (list file_ref)) :=
  match slice (vr_data v) (vr_content_offset v) (blen (vr_data v)) with
  | Ok d =>
      match collect (file_next d (erase_byte (vh_attr (vr_header v)))) fuel 0 with
      | Some (Ok l) => Some (Ok (filter (fun f => negb (fh_type (fr_header f) =? FFS_PAD)) l))
      | r => r
      end
  | _ => Some Panic
  end.

(** volume.rs:421-428; [None] is Capacity::Unbounded. *)
Record volume := Volume { v_guid : list N; v_attr : N; v_ext : option (ext_header * list N); v_blocks : list block; v_files : list file;
                          v_capacity : option N }.

(** volume.rs:434-443. *)
Definition volume_new (blocks : list block) : volume := Volume FFS3_GUID 0 None blocks [] None.

Definition pad_file (data : list N) : file := File (repeat 0xff 16) FFS_PAD 0 true [Section (HPad (blen data)) (Leaf data) false].
Definition pad8 (pad_byte : N) (l : list N) : list N := l ++ repeat pad_byte (N.to_nat (if blen l mod 8 =? 0 then 0 else 8 - blen l mod 8)).

(** volume.rs:572-625, one file. *)
Definition add_file (dbg : bool) (pad_byte : N) (large : bool) (buf : list N) (f : file) : res ferr (list N) :=
  let* file_buffer := serialize_file dbg f in
  if (FFS_V2_MAX_FILE_SIZE <=? blen file_buffer) && negb large then Err FUnsupported
  else
    let* r := file_ref_new file_buffer in
    let align := 2 ^ N.land (fv_attributes r) 0x1F in
    let* buf :=
      if negb ((blen buf + fr_content_offset r) mod align =? 0) then
        if negb (align <? 0x1000000) then Panic                     (* 592 assert *)
        else
          let rem := (blen buf + 24 + fr_content_offset r) mod align in
          let pad_len := if rem =? 0 then 0 else align - rem in
          let* p := serialize_file dbg (pad_file (repeat 0xff (N.to_nat pad_len))) in
          Ok (buf ++ p)
      else Ok buf in
    Ok (pad8 pad_byte (buf ++ file_buffer)).

Fixpoint add_files (dbg : bool) (pad_byte : N) (large : bool) (buf : list N) (l : list file) : res ferr (list N) :=
  match l with
  | [] => Ok buf
  | f :: l' => let* buf := add_file dbg pad_byte large buf f in add_files dbg pad_byte large buf l'
  end.

(** volume.rs:504-662 Volume::serialize.  The header is first written with
    zeros in the fields that are not known yet. *)
Definition serialize_volume (dbg : bool) (v : volume) : res ferr (list N) :=
  let pad_byte := erase_byte (v_attr v) in
  let large := list_eqb (v_guid v) FFS3_GUID in
  let header length hl ck ext := VHeader (repeat 0 16) (v_guid v) length FVH (v_attr v) hl ck ext 0 FFS_REVISION in
  let map_bytes := flat_map block_bytes (v_blocks v ++ [(0, 0)]) in
  let start := vheader_bytes (header 0 0 0 0) ++ map_bytes in
  let header_len := blen start in
  let* (buf, ext_offset) :=
    match v_ext v with
    | Some (e, data) =>
        let f := pad_file (ext_header_bytes e ++ data) in
        let* _ := to_u32 (blen (ext_header_bytes e ++ data)) FInvalidHeader in
        let* b := serialize_file dbg f in
        let* o := file_content_offset dbg f in
        Ok (start ++ b, header_len + o)
    | None => Ok (start, 0)
    end in
  let buf := pad8 pad_byte buf in
  let* buf := add_files dbg pad_byte large buf (v_files v) in
  let buf := match v_capacity v with
             | Some size => if blen buf <? size then buf ++ repeat pad_byte (N.to_nat (size - blen buf)) else buf
             | None => buf
             end in
  if two16 <=? header_len then Err FInvalidHeader
  else if two16 <=? ext_offset then Err FInvalidHeader
  else
    let sum := sum16 0 (bytes_at buf 0 header_len ++ le_bytes 8 (blen buf) ++ le_bytes 2 header_len ++ le_bytes 2 ext_offset) in
    let ck := (two16 - sum) mod two16 in
    Ok (vheader_bytes (header (blen buf) header_len ck ext_offset) ++ skipn 56 buf).

(** volume.rs:697-720 TryFrom<&VolumeRef>. *)
Fixpoint files_of_refs (dbg : bool) (fuel : nat) (l : list file_ref) : option (res ferr (list file)) :=
  match l with
  | [] => Some (Ok [])
  | r :: l' =>
      match file_of_ref dbg fuel r with
      | Some (Ok f) => match files_of_refs dbg fuel l' with Some (Ok fs) => Some (Ok (f :: fs)) | x => x end
      | Some (Err e) => Some (Err e)
      | Some Panic => Some Panic
      | None => None
      end
  end.
Definition volume_of_ref (dbg : bool) (fuel : nat) (v : volume_ref) : option (res ferr volume) :=
  if FFS_REVISION <? vh_revision (vr_header v) then Some (Err FUnsupported)
  else
    match vr_files fuel v with
    | Some (Ok l) =>
        match files_of_refs dbg fuel l with
        | Some (Ok fs) =>
            match vr_ext_header v with
            | Ok e => Some (Ok (Volume (vh_guid (vr_header v)) (vh_attr (vr_header v)) e (vr_blocks v) fs (Some (vh_length (vr_header v)))))
            | Err e => Some (Err e)
            | Panic => Some Panic
            end
        | Some (Err e) => Some (Err e)
        | Some Panic => Some Panic
        | None => None
        end
    | Some (Err e) => Some (Err e)
    | Some Panic => Some Panic
    | None => None
    end.
