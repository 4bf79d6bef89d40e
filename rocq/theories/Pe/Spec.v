(** What loading and relocating an image mean, byte by byte. *)
From Verif Require Import Base.Prelude Base.Bytes Pe.Model.
Local Open Scope N_scope.

(** ** Loading *)

(** A section copies the smaller of its two sizes, all raw data if it gives no virtual size. *)
Definition copied (s : section) : N := if sc_vsize s =? 0 then sc_rawsize s else N.min (sc_vsize s) (sc_rawsize s).

(** Headers and sections lie within the file and within the [len] bytes of the buffer. *)
Definition fits (info : pe_info) (image : list N) (len : N) : Prop :=
  pe_headers info <= len /\ pe_headers info <= blen image /\
  forall s, In s (pe_sections info) -> sc_va s + copied s <= len /\ sc_rawptr s + copied s <= blen image.

(** The byte at offset [i] of the loaded image: from the last section that covers it, else from the headers, else 0. *)
Definition covers (s : section) (i : N) : bool := (sc_va s <=? i) && (i <? sc_va s + copied s).
Definition byte (b : list N) (i : N) : N := nth (N.to_nat i) b 0.
Definition loaded_byte (info : pe_info) (image : list N) (i : N) : N :=
  match find (fun s => covers s i) (rev (pe_sections info)) with
  | Some s => byte image (sc_rawptr s + (i - sc_va s))
  | None => if i <? pe_headers info then byte image i else 0
  end.

(** ** Relocation *)

(** A relocation table: pages with their entries, each a kind (0 nothing, 3 a 32-bit, 10 a 64-bit address) and an
    offset within 4096 bytes. *)
Definition table := list (N * list (N * N)).

Definition kind_width (k : N) : nat := if k =? 3 then 4 else if k =? 10 then 8 else 0.
Definition known (k : N) : Prop := k = 0 \/ k = 3 \/ k = 10.

(** The bytes of a table; the number of entries of a page is even, so that each block ends on a multiple of 4. *)
Definition entry_bytes (e : N * N) : list N := le_bytes 2 (fst e * 4096 + snd e).
Definition block_bytes (p : N * list (N * N)) : list N :=
  le_bytes 4 (fst p) ++ le_bytes 4 (8 + 2 * N.of_nat (length (snd p))) ++ flat_map entry_bytes (snd p).
Definition table_bytes (t : table) : list N := flat_map block_bytes t.
Definition table_ok (t : table) : Prop := forall p l, In (p, l) t ->
  p < two32 /\ N.of_nat (length l) < 2 ^ 30 /\ N.even (N.of_nat (length l)) = true /\
  forall k o, In (k, o) l -> known k /\ o < 4096.

(** The places to adjust: offset in the image and width in bytes; [rva] is the header stripped from a TE image. *)
Definition page_places (rva : N) (p : N * list (N * N)) : list (N * nat) :=
  flat_map (fun e => match kind_width (fst e) with O => [] | w => [(fst p + snd e - rva, w)] end) (snd p).
Definition places (rva : N) (t : table) : list (N * nat) := flat_map (page_places rva) t.

Definition inside (i : N) (p : N * nat) : Prop := fst p <= i < fst p + N.of_nat (snd p).
Definition apart (p q : N * nat) : Prop := fst p + N.of_nat (snd p) <= fst q \/ fst q + N.of_nat (snd q) <= fst p.

(** The little-endian number at a place. *)
Definition value_at (b : list N) (p : N * nat) : N := le_at b (N.to_nat (fst p)) (snd p).

(** [image'] is [image] with [adj] added to the number at each place and [new_base] in the base field. *)
Definition relocated (base_at : N) (ps : list (N * nat)) (adj new_base : N) (image image' : list N) : Prop :=
  length image' = length image /\
  value_at image' (base_at, 8%nat) = new_base /\
  (forall p, In p ps -> value_at image' p = (value_at image p + adj) mod 256 ^ N.of_nat (snd p)) /\
  (forall i, ~ inside i (base_at, 8%nat) -> (forall p, In p ps -> ~ inside i p) -> byte image' i = byte image i).

(** An image with a relocation table: it lies in the image at the directory's address, its places lie in the image
    after the stripped header, and base field, table and places are apart from each other. *)
Record well_formed (info : pe_info) (t : table) (image : list N) : Prop := MkWf {
  wf_bytes : bytes_ok image;
  wf_len : blen image < 2 ^ 63;
  wf_base : pe_base_at info + 8 <= blen image;
  wf_table : table_ok t;
  wf_dir : exists va size, pe_reloc info = Some (va, size) /\ va + size <= blen image /\
    firstn (N.to_nat size) (skipn (N.to_nat va) image) = table_bytes t /\
    apart (pe_base_at info, 8%nat) (va, N.to_nat size) /\
    forall p, In p (places (rva_offset info) t) -> apart p (va, N.to_nat size);
  wf_pages : forall p l k o, In (p, l) t -> In (k, o) l -> rva_offset info <= p + o;
  wf_places : forall p, In p (places (rva_offset info) t) -> fst p + N.of_nat (snd p) <= blen image /\ apart p (pe_base_at info, 8%nat);
  wf_apart : ForallOrdPairs apart (places (rva_offset info) t) }.

(** The preferred address of the image's first byte. *)
Definition preferred (info : pe_info) (image : list N) : N := value_at image (pe_base_at info, 8%nat) + rva_offset info.
