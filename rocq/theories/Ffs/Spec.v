(** What a firmware file system says about its sections, files and volumes,
    independently of the code that reads and writes it. *)
From Verif Require Import Base.Prelude Base.Bytes Ffs.Model.
Local Open Scope N_scope.

(** ** Sections *)

(** Section types with a header of their own: compression, GUID-defined,
    version, free-form GUID. *)
Definition special_types : list N := [0x01; 0x02; 0x14; 0x18].

(** Bytes between the common header and the content. *)
Definition own_header_len (h : sheader) : N :=
  match h with
  | HPad _ | HStandard _ _ => 0
  | HCompression _ _ => 5
  | HGuidDefined _ items _ => 20 + blen items
  | HVersion _ _ => 2
  | HFreeform _ _ => 16
  end.

(** The section's length with the 4-byte common header, and on disk: 16 MiB
    and more need the extended header, which is 8 bytes. *)
Definition short_len (h : sheader) (c : list N) : N := 4 + own_header_len h + blen c.
Definition common_len (h : sheader) (c : list N) : N := if short_len h c <? 2 ^ 24 then 4 else 8.
Definition disk_len (h : sheader) (c : list N) : N := common_len h c + own_header_len h + blen c.

(** Header fields fit their places; the header agrees with the content [c];
    the content of a GUID-defined section starts where its header says, given
    [off] bytes of common header. *)
Definition fields_ok (off : N) (h : sheader) : Prop :=
  match h with
  | HPad _ => False
  | HStandard ty _ => ty < 256 /\ ~ In ty special_types
  | HCompression z _ => uncompressed_length z < 2 ^ 32 /\ compression_type z < 256
  | HGuidDefined g items _ =>
      length (section_definition_guid g) = 16%nat /\ bytes_ok (section_definition_guid g) /\ bytes_ok items /\
      data_offset g = off + 20 + blen items /\ data_offset g < 2 ^ 16 /\ gd_attributes g < 2 ^ 16
  | HVersion v _ => v < 2 ^ 16
  | HFreeform g _ => length g = 16%nat /\ bytes_ok g
  end.
Definition size_of (h : sheader) : N :=
  match h with HPad n | HStandard _ n | HCompression _ n | HGuidDefined _ _ n | HVersion _ n | HFreeform _ n => n end.

(** A section that can be written: composed, consistent, below 4 GiB, and not
    of the one length whose short size field means "see the extended
    header". *)
Definition writable (s : section) : Prop :=
  let h := s_header s in let c := s_bytes s in
  dirty s = false /\ size_of h = blen c /\ bytes_ok c /\ fields_ok (common_len h c) h /\
  disk_len h c < 2 ^ 32 /\ short_len h c <> 0xFFFFFF.

(** Same section, as far as it is on disk. *)
Definition same_section (a b : section) : Prop := s_header a = s_header b /\ s_bytes a = s_bytes b.

(** The section as a reader first sees it: nothing inside is looked at. *)
Definition unread (h : sheader) (c : list N) : section :=
  Section h (match h with HCompression _ _ | HGuidDefined _ _ _ => Encapsulation [] c false | _ => Leaf c end) false.

(** ** Files *)

(** Sum of bytes modulo 256. *)
Definition byte_sum (l : list N) : N := fold_right N.add 0 l mod 256.
(** One byte replaced. *)
Definition set_byte (l : list N) (i : nat) (v : N) : list N := firstn i l ++ v :: skipn (S i) l.

Definition bit (x i : N) : bool := N.testbit x i.

(** A file that can be written. *)
Definition file_ok (f : file) : Prop :=
  length (f_name f) = 16%nat /\ bytes_ok (f_name f) /\ f_type f < 256 /\ f_attr f < 256 /\ Forall writable (f_sections f).

(** What a reader sees of file [f]. *)
Definition reads_as (r : file_ref) (f : file) : Prop :=
  fh_name (fr_header r) = f_name f /\ fh_type (fr_header r) = f_type f /\ fr_polarity r = f_polarity f /\
  (fh_attr (fr_header r) = f_attr f \/ (fh_attr (fr_header r) = N.lor (f_attr f) 1 /\ 2 ^ 24 <= fr_size r)).

(** Alignment of the content that the attributes of a file ask for, as a
    power of two (PI 1.8, table 3.3). *)
Definition asked_alignment (attr : N) : N :=
  let v := N.land (N.shiftr attr 3) 7 in
  if bit attr 1 then 17 + v else nth (N.to_nat v) [0; 4; 7; 9; 10; 12; 15; 16] 0.

(** ** Volumes *)

(** Sum of 16-bit little-endian words modulo 2^16. *)
Fixpoint words (l : list N) : list N := match l with a :: b :: l' => a + 256 * b :: words l' | _ => [] end.
Definition word_sum (l : list N) : N := fold_right N.add 0 (words l) mod 2 ^ 16.

Definition guid_ok (g : list N) : Prop := length g = 16%nat /\ bytes_ok g.
Definition block_ok (b : block) : Prop := fst b < 2 ^ 32 /\ snd b < 2 ^ 32 /\ b <> (0, 0).

(** A volume that can be written. *)
Definition volume_ok (v : volume) : Prop :=
  (v_guid v = FFS2_GUID \/ v_guid v = FFS3_GUID) /\ v_attr v < 2 ^ 32 /\ v_blocks v <> [] /\ Forall block_ok (v_blocks v) /\
  Forall (fun f => file_ok f /\ f_type f <> FFS_PAD) (v_files v) /\
  match v_ext v with
  | Some (e, d) => guid_ok (eh_name e) /\ eh_size e = 20 + blen d /\ eh_size e < 2 ^ 24 - 24 /\ bytes_ok d
  | None => True
  end.

(** ** Bytes from anywhere *)

(** The size field of a section and the length of its common header, as the
    format defines them; for at least 8 bytes. *)
Definition size_field (b : list N) : N := le_val (firstn 3 b).
Definition sized (b : list N) (size off : N) : Prop :=
  (size_field b <> 0xFFFFFF /\ size = size_field b /\ off = 4) \/
  (size_field b = 0xFFFFFF /\ 8 <= blen b /\ size = le_val (firstn 4 (skipn 4 b)) /\ off = 8).

(** A GUID-defined section that puts its content inside its own header. *)
Definition overlapping_guid_header (b : list N) : Prop :=
  exists size off, sized b size off /\ size <= blen b /\ nth 3 b 0 = 2 /\ off + 20 <= blen b /\
    le_val (firstn 2 (skipn (N.to_nat (off + 16)) b)) < off + 20.

(** [p] is a piece of [b]. *)
Definition piece (p b : list N) : Prop := exists x y, b = x ++ p ++ y.

(** ** Lengths and places *)

(** The sections of a file one after the other, each starting at a multiple
    of four. *)
Fixpoint body_len (n : N) (l : list section) : N :=
  match l with
  | [] => n
  | s :: l' => body_len ((n + 3) / 4 * 4 + disk_len (s_header s) (s_bytes s)) l'
  end.
Definition file_len (f : file) : N :=
  let n := body_len 0 (f_sections f) in if bit (f_attr f) 0 || (2 ^ 24 <=? 24 + n) then 32 + n else 24 + n.

(** A file that a volume can take: no data checksum, an alignment below
    16 MiB, and below 16 MiB long unless the volume takes large files (in
    memory nothing is longer than isize::MAX). *)
Definition storable (large : bool) (f : file) : Prop :=
  bit (f_attr f) 6 = false /\ asked_alignment (f_attr f) < 24 /\ file_len f < (if large then 2 ^ 63 else 2 ^ 24).

(** [p] is found at offset [o] of [whole]. *)
Definition at_offset (whole : list N) (o : N) (p : list N) : Prop := exists x y, whole = x ++ p ++ y /\ blen x = o.

(** File [f] is stored at offset [o]: with the length of its header and its
    sections, eight-byte aligned, its content at the alignment it asks for,
    read as [r], with its sections. *)
Definition stored (dbg : bool) (whole : list N) (f : file) (p : N * file_ref) : Prop :=
  let (o, r) := p in
  at_offset whole o (fr_data r) /\
  (blen (fr_data r) = fr_size r /\ fr_size r = file_len f /\ fr_size r = fr_content_offset r + body_len 0 (f_sections f)) /\ o mod 8 = 0 /\
  (o + fr_content_offset r) mod 2 ^ asked_alignment (f_attr f) = 0 /\ reads_as r f /\
  forall fuel, (length (f_sections f) < fuel)%nat ->
    exists l, fr_sections dbg fuel r = Some (Ok l) /\ Forall2 same_section l (f_sections f).

(** One after the other from [lo] on, without overlap. *)
Fixpoint in_order (lo : N) (ps : list (N * file_ref)) : Prop :=
  match ps with [] => True | (o, r) :: t => lo <= o /\ in_order (o + fr_size r) t end.

(** The header, its block map with the closing entry and the header of the
    extended header's file end below 64 KiB; the files can be stored. *)
Definition volume_fits (v : volume) : Prop :=
  56 + 8 * (blen (v_blocks v) + 1) + 24 < 2 ^ 16 /\
  exists large : bool, (large = true <-> v_guid v = FFS3_GUID) /\ Forall (storable large) (v_files v).

(** The length a file's header gives, and the length of that header. *)
Definition stored_size (b : list N) : N := if bit (nth 19 b 0) 0 then le_val (firstn 8 (skipn 24 b)) else le_val (firstn 3 (skipn 20 b)).
Definition header_size (b : list N) : N := if bit (nth 19 b 0) 0 then 32 else 24.
