(** What the PI firmware volume layout says, independently of the reader:
    volumes, files and sections as they are written. *)
From Verif Require Import Base.Prelude Base.Bytes PiFs.Model.
Local Open Scope N_scope.

(** Bytes needed to get from [n] to the next multiple of [a]. *)
Definition to_next (a n : N) : N := (a - n mod a) mod a.
Definition total (l : list N) : N := fold_right N.add 0 l.
(** The number that makes a sum zero in one byte. *)
Definition complement8 (n : N) : N := (256 - n mod 256) mod 256.

(** ** Files *)

Record file := File { f_name : list N; f_type : N; f_attributes : N; f_content : list N;
                      f_inverted : bool (* written on erase polarity one *) }.

(** Attribute 0x01: the 8-byte size follows the header.  Attribute 0x40: the
    content has a checksum. *)
Definition large (f : file) : bool := N.testbit (f_attributes f) 0.
Definition summed (f : file) : bool := N.testbit (f_attributes f) 6.
Definition header_len (f : file) : N := if large f then 32 else 24.
Definition file_len (f : file) : N := header_len f + blen (f_content f).

(** The file's check: of the content when it is summed, else 0xAA. *)
Definition content_check (f : file) : N := if summed f then complement8 (total (f_content f)) else 0xAA.
(** Header construction, header valid, data valid. *)
Definition state_byte (f : file) : N := if f_inverted f then 0xF8 else 0x07.
Definition size_bytes (f : file) : list N := le_bytes 3 (if large f then 0 else file_len f).
Definition long_size_bytes (f : file) : list N := if large f then le_bytes 8 (file_len f) else [].
(** The header sums to zero with the content check and the state taken as
    zero. *)
Definition header_check (f : file) : N :=
  complement8 (total (f_name f) + f_type f + f_attributes f + total (size_bytes f) + total (long_size_bytes f)).

Definition file_bytes (f : file) : list N :=
  f_name f ++ [header_check f; content_check f; f_type f; f_attributes f] ++ size_bytes f ++ [state_byte f] ++
  long_size_bytes f ++ f_content f.

Definition file_fits (f : file) : Prop :=
  length (f_name f) = 16%nat /\ bytes_ok (f_name f) /\ f_type f < 256 /\ f_attributes f < 256 /\ bytes_ok (f_content f) /\
  file_len f < (if large f then 2 ^ 63 else 2 ^ 24).

(** What a reader should say of the file. *)
Definition reads_as (f : file) (r : pfile) : Prop :=
  pf_name r = f_name f /\ pf_type r = f_type f /\ pf_attributes r = f_attributes f /\ pf_size r = file_len f /\
  pf_data r = file_bytes f /\ file_content r = Ok (f_content f).

(** ** Volumes *)

(** The bytes between the header and the extended header, the name, and the
    bytes after the 20 of the extended header. *)
Record volume := Volume {
  v_zero : list N; v_ffs3 : bool; v_attributes : N; v_reserved : N; v_revision : N;
  v_blocks : list (N * N); v_ext : option (list N * list N * list N);
  v_filler : list N; v_files : list file; v_tail : list N }.

Definition erased (v : volume) : N := if N.testbit (v_attributes v) 11 then 0xff else 0.
Definition block_bytes (m : list (N * N)) : list N := flat_map (fun e => le_bytes 4 (fst e) ++ le_bytes 4 (snd e)) m.
Definition head_len (v : volume) : N := 56 + 8 * (blen (v_blocks v) + 1).

Definition ext_bytes (v : volume) : list N :=
  match v_ext v with
  | None => []
  | Some (gap, name, d) => gap ++ name ++ le_bytes 4 (20 + blen d) ++ d
  end.
Definition ext_offset (v : volume) : N :=
  match v_ext v with None => 0 | Some (gap, _, _) => head_len v + blen gap end.

(** The files, each at a multiple of eight. *)
Fixpoint area (e : N) (fs : list file) (tail : list N) : list N :=
  match fs with
  | [] => tail
  | f :: r => file_bytes f ++ repeat e (N.to_nat (to_next 8 (file_len f))) ++ area e r tail
  end.
Definition body (v : volume) : list N := ext_bytes v ++ v_filler v ++ area (erased v) (v_files v) (v_tail v).

(** The header with the given check; all 16-bit words of it sum to zero. *)
Definition head_with (v : volume) (check : N) : list N :=
  v_zero v ++ (if v_ffs3 v then FFS3 else FFS2) ++ le_bytes 8 (head_len v + blen (body v)) ++ [0x5F; 0x46; 0x56; 0x48] ++
  le_bytes 4 (v_attributes v) ++ le_bytes 2 (head_len v) ++ le_bytes 2 check ++ le_bytes 2 (ext_offset v) ++
  [v_reserved v; v_revision v] ++ block_bytes (v_blocks v ++ [(0, 0)]).
Fixpoint words (l : list N) : N := match l with a :: b :: r => a + 256 * b + words r | _ => 0 end.
Definition head_check (v : volume) : N := (2 ^ 16 - words (head_with v 0) mod 2 ^ 16) mod 2 ^ 16.
Definition volume_bytes (v : volume) : list N := head_with v (head_check v) ++ body v.

Definition volume_fits (v : volume) : Prop :=
  length (v_zero v) = 16%nat /\ bytes_ok (v_zero v) /\ v_attributes v < 2 ^ 32 /\ v_reserved v < 256 /\
  2 <= v_revision v < 256 /\
  v_blocks v <> [] /\ Forall (fun e => fst e < 2 ^ 32 /\ snd e < 2 ^ 32 /\ e <> (0, 0)) (v_blocks v) /\
  head_len v < 2 ^ 16 /\ ext_offset v < 2 ^ 16 /\ head_len v + blen (body v) < 2 ^ 63 /\
  (forall gap name d, v_ext v = Some (gap, name, d) -> length name = 16%nat /\ 20 + blen d < 2 ^ 32) /\
  blen (v_filler v) = to_next 8 (blen (ext_bytes v)) /\
  Forall file_fits (v_files v) /\
  (* after the last file: less than a header, or erased *)
  (blen (v_tail v) < 24 \/ firstn 24 (v_tail v) = repeat (erased v) 24).

(** ** Sections *)

(** Bytes of a section before its content. *)
Definition own_header (m : meta) : list N :=
  match m with
  | MNone => []
  | MCompression n t => le_bytes 4 n ++ [t]
  | MGuidDefined g o a x => g ++ le_bytes 2 o ++ le_bytes 2 a ++ x
  | MVersion n => le_bytes 2 n
  | MFreeform g => g
  end.
Definition common_header (long : bool) (s : section) : list N :=
  if long then [255; 255; 255; sec_type s] ++ le_bytes 4 (sec_size s) else le_bytes 3 (sec_size s) ++ [sec_type s].
Definition section_bytes (long : bool) (s : section) : list N := common_header long s ++ own_header (sec_meta s) ++ sec_data s.

Definition meta_fits (long : bool) (ty : N) (m : meta) : Prop :=
  match m with
  | MNone => ty < 256 /\ ~ In ty [0x01; 0x02; 0x14; 0x18]
  | MCompression n t => ty = 0x01 /\ n < 2 ^ 32 /\ t < 256
  | MGuidDefined g o a x => ty = 0x02 /\ length g = 16%nat /\ o = (if long then 8 else 4) + 20 + blen x /\ o < 2 ^ 16 /\ a < 2 ^ 16
  | MVersion n => ty = 0x14 /\ n < 2 ^ 16
  | MFreeform g => ty = 0x18 /\ length g = 16%nat
  end.
Definition section_fits (long : bool) (s : section) : Prop :=
  meta_fits long (sec_type s) (sec_meta s) /\ sec_size s = blen (section_bytes long s) /\
  sec_size s < (if long then 2 ^ 32 else 2 ^ 24 - 1).

(** [b] is sections one after the other, each at a multiple of four; [l] are
    they and, after each encapsulation section, those within it. *)
Inductive laid_out (x : extractor) : list N -> list section -> Prop :=
| laid_end : forall t, blen t < 4 -> laid_out x t []
| laid_plain : forall long s pad rest l,
    section_fits long s -> sec_type s < 0xC0 -> sec_type s <> 0x01 -> sec_type s <> 0x02 ->
    (blen pad = to_next 4 (sec_size s) \/ rest = [] /\ blen pad <= to_next 4 (sec_size s)) ->
    laid_out x rest l -> laid_out x (section_bytes long s ++ pad ++ rest) (s :: l)
| laid_encapsulation : forall long s pad rest inner li l,
    section_fits long s -> (sec_type s = 0x01 \/ sec_type s = 0x02) ->
    (blen pad = to_next 4 (sec_size s) \/ rest = [] /\ blen pad <= to_next 4 (sec_size s)) ->
    x s = Ok inner -> laid_out x inner li ->
    laid_out x rest l -> laid_out x (section_bytes long s ++ pad ++ rest) (s :: li ++ l).

(** ** Blocks *)

(** Where block [lba] is: its offset, its size, and how many blocks of its
    region there are from it on. *)
Fixpoint block_at (m : list (N * N)) (lba : N) : option (N * N * N) :=
  match m with
  | [] => None
  | (n, len) :: r =>
      if lba <? n then Some (lba * len, len, n - lba)
      else match block_at r (lba - n) with
           | Some (o, s, k) => Some (n * len + o, s, k)
           | None => None
           end
  end.
Definition total_size (m : list (N * N)) : N := fold_right (fun e t => fst e * snd e + t) 0 m.

(** ** What is reported of any bytes *)

(** The file [f] is at offset [o] of [b]: its bytes are those there, it ends
    within [b], its name, type and attributes are those of the header there,
    the header's sum is right, the state says the file is complete, and the
    content's check passes as far as it is looked at. *)
Definition byte_at (b : list N) (i : N) : N := nth (N.to_nat i) b 0.
Definition range (b : list N) (o n : N) : list N := firstn (N.to_nat n) (skipn (N.to_nat o) b).
Definition file_at (b : list N) (o : N) (f : pfile) : Prop :=
  o + pf_size f <= blen b /\ o + pf_header f <= blen b /\ pf_data f = range b o (pf_size f) /\ pf_name f = range b o 16 /\
  pf_type f = byte_at b (o + 18) /\ pf_attributes f = byte_at b (o + 19) /\
  pf_header f = (if N.testbit (byte_at b (o + 19)) 0 then 32 else 24) /\
  pf_size f = le_val (if N.testbit (byte_at b (o + 19)) 0 then range b (o + 24) 8 else range b (o + 20) 3) /\
  (* the header's bytes but those at 17 and 23 sum to zero *)
  total (range b o (pf_header f)) mod 256 = (byte_at b (o + 17) + byte_at b (o + 23)) mod 256 /\
  (* data valid, not marked for update or deleted, on either erase polarity *)
  In (byte_at b (o + 23)) [0x04; 0x05; 0x06; 0x07; 0xF8; 0xF9; 0xFA; 0xFB].

(** Files one after the other, each at the next multiple of eight. *)
Inductive one_after_the_other (b : list N) : N -> list pfile -> Prop :=
| one_end : forall o, one_after_the_other b o []
| one_more : forall o f l, file_at b o f ->
    one_after_the_other b (o + pf_size f + to_next 8 (o + pf_size f)) l -> one_after_the_other b o (f :: l).

Fixpoint found (l : list (item pfile)) : list pfile :=
  match l with
  | [] => []
  | Got f :: r => f :: found r
  | Failed _ :: r => found r
  end.

(** [b] with the byte at [i] made [x]. *)
Definition altered (b : list N) (i : nat) (x : N) : list N := firstn i b ++ x :: skipn (S i) b.

(** [b] is laid out up to a place where reading must fail with [e]: a section
    the extractor refuses, or one whose long size is cut off; [l] are the
    sections before it (the refused one among them). *)
Inductive laid_until (x : extractor) : list N -> list section -> perr -> Prop :=
| until_cut : forall ty t, blen t < 4 -> laid_until x ([255; 255; 255; ty] ++ t) [] VolumeCorrupted
| until_refused : forall long s rest e,
    section_fits long s -> (sec_type s = 0x01 \/ sec_type s = 0x02) -> x s = Err e ->
    laid_until x (section_bytes long s ++ rest) [s] e
| until_within : forall long s rest inner li e,
    section_fits long s -> (sec_type s = 0x01 \/ sec_type s = 0x02) -> x s = Ok inner -> laid_until x inner li e ->
    laid_until x (section_bytes long s ++ rest) (s :: li) e
| until_plain : forall long s pad rest l e,
    section_fits long s -> sec_type s < 0xC0 -> sec_type s <> 0x01 -> sec_type s <> 0x02 ->
    blen pad = to_next 4 (sec_size s) ->
    laid_until x rest l e -> laid_until x (section_bytes long s ++ pad ++ rest) (s :: l) e
| until_encapsulation : forall long s pad rest inner li l e,
    section_fits long s -> (sec_type s = 0x01 \/ sec_type s = 0x02) -> blen pad = to_next 4 (sec_size s) ->
    x s = Ok inner -> laid_out x inner li ->
    laid_until x rest l e -> laid_until x (section_bytes long s ++ pad ++ rest) (s :: li ++ l) e.

(** What may be said of bytes opened as a volume: the header is within its
    length and that within the bytes, its signature, sum, revision and file
    system are right, the block map is what the header holds and ends with its
    only empty entry, and the extended header, if any, is within the bytes. *)
Definition volume_at (b : list N) (r : pvolume) : Prop :=
  let header_length := le_val (range b 48 2) in
  let volume_length := le_val (range b 32 8) in
  let ext := le_val (range b 52 2) in
  56 <= header_length /\ header_length <= volume_length /\ volume_length <= blen b /\
  range b 40 4 = [0x5F; 0x46; 0x56; 0x48] /\ words (range b 0 header_length) mod 2 ^ 16 = 0 /\ 2 <= byte_at b 55 /\
  (range b 16 16 = FFS2 \/ range b 16 16 = FFS3) /\
  pv_data r = b /\ pv_attributes r = le_val (range b 44 4) /\
  range b 56 (header_length - 56) = block_bytes (pv_blocks r ++ [(0, 0)]) /\ pv_blocks r <> [] /\ ~ In (0, 0) (pv_blocks r) /\
  match pv_ext r with
  | None => ext = 0
  | Some (name, d) => ext <> 0 /\ ext + 20 <= blen b /\ name = range b ext 16 /\
      ext + le_val (range b (ext + 16) 4) <= blen b /\ d = range b ext (le_val (range b (ext + 16) 4))
  end.
