(** What a user of a firmware volume expects, independently of the code that serves them. *)
From Verif Require Import Base.Prelude Base.Bytes Mm.Model Mm.Spec Ffs.Model Ffs.Spec FwVol.Model.
Local Open Scope N_scope.

(** Volume [v], as it is written, is in memory at [base]; [out] are its bytes. *)
Definition volume_at (dbg : bool) (m : mem) (base : N) (v : volume) (out : list N) : Prop :=
  volume_ok v /\ volume_fits v /\ serialize_volume dbg v = Ok out /\ blen out < 2 ^ 63 /\ holds m base out.

(** It can be read: bit 2 of its attributes. *)
Definition readable (v : volume) : Prop := bit (v_attr v) 2 = true.

(** For all large enough bounds on the lengths of lists. *)
Definition eventually (P : nat -> Prop) : Prop := exists n, forall fuel, (n <= fuel)%nat -> P fuel.

(** The attributes of a file (PI 1.8, vol. 3, 3.4.1.4): bits 0 to 4 are the alignment as a power of two, bit 8 is "fixed". *)
Definition file_attributes (f : file) : N := asked_alignment (f_attr f) + (if bit (f_attr f) 2 then 0x100 else 0).
(** Bit 9 tells that the file is mapped into memory, as the volume (bit 10 of its attributes). *)
Definition mapped (v : volume) : N := if bit (v_attr v) 10 then 0x200 else 0.

(** The files of a type; type zero stands for all. *)
Definition of_type (ty : N) (v : volume) : list file := filter (fun f => (ty =? 0) || (f_type f =? ty)) (v_files v).

(** The first file of that name. *)
Definition first_named (v : volume) (name : list N) (f : file) : Prop :=
  exists p q, v_files v = p ++ f :: q /\ f_name f = name /\ forall g, In g p -> f_name g <> name.

(** [c] are the bytes of file [f]: they lie somewhere in the volume and, read as sections, are those of the file. *)
Definition data_of (dbg : bool) (out : list N) (f : file) (c : list N) : Prop :=
  blen c = body_len 0 (f_sections f) /\ piece c out /\
  eventually (fun fuel => exists l, sections_of dbg fuel c = Some (Ok l) /\ Forall2 same_section l (f_sections f)).

(** ** Sections inside sections *)

Definition is_leaf (h : sheader) : bool := match h with HCompression _ _ | HGuidDefined _ _ _ => false | _ => true end.
(** Opening [s] shows [subs], each of which can be opened again: a leaf has nothing inside, and what nobody can open stays
    closed; otherwise the extractor gives the bytes of [subs] as they are written. *)
Fixpoint opens (dbg : bool) (ex : section -> res ferr (list N)) (depth : nat) (s : section) (subs : list section) : Prop :=
  (is_leaf (s_header s) = true /\ subs = []) \/
  (is_leaf (s_header s) = false /\
   match depth with
   | O => False
   | S d =>
       (ex (unread (s_header s) (s_bytes s)) = Err FUnsupported /\ subs = []) \/
       exists bytes, ex (unread (s_header s) (s_bytes s)) = Ok bytes /\ file_content dbg [] subs = Ok bytes /\ Forall writable subs /\
         forall x, In x subs -> exists l, opens dbg ex d x l
   end).

(** Sections with what they hold, one level deep. *)
Definition shown (l : list (section * list section)) : list section := flat_map (fun p => fst p :: snd p) l.
(** The section number [inst] of type [ty]. *)
Definition section_at (ty inst : N) (l : list section) : option section :=
  nth_error (filter (fun s => section_type_raw (s_header s) =? ty) l) (N.to_nat inst).

(** ** Blocks *)

(** Where block [lba] starts, how long it is and how many there are from it on in its region, by the block map. *)
Fixpoint block_of (blocks : list block) (lba : N) : option (N * N * N) :=
  match blocks with
  | [] => None
  | (n, len) :: l =>
      if lba <? n then Some (lba * len, len, n - lba)
      else match block_of l (lba - n) with Some (o, s, r) => Some (n * len + o, s, r) | None => None end
  end.

(** Bytes [a, a+n) of [l]. *)
Definition part (l : list N) (a n : N) : list N := firstn (N.to_nat n) (skipn (N.to_nat a) l).

(** ** Device paths (UEFI 2.10, section 10.3) *)

(** A node: type, subtype, length including these four bytes, data; the end node closes the path. *)
Definition node (ty sub : N) (data : list N) : list N := [ty; sub] ++ le_bytes 2 (4 + blen data) ++ data.
Definition end_node : list N := node 0x7F 0xFF [].

(** The protocols at [p] and [q] are those of the volume at [base]. *)
Definition serves (t : table) (base p q : N) : Prop := lookup t p = Some (Fvb base) /\ lookup t q = Some (Fv base).

(** ** What the two reading services must do *)

(** ReadFile, for a file with data [c], type [ty] and attributes [at_]: the buffer is not wanted, is to be allocated, is too small,
    missing, or filled. *)
Definition file_read (m : mem) (c : list N) (ty at_ : N) (alloc : N -> res efi_error N) (buffer : option N) (size : N) (o : file_out) : Prop :=
  fo_meta o = Some (blen c, ty, at_) /\
  match buffer with
  | None => fo_status o = FSuccess /\ fo_mem o = m
  | Some p =>
      if size =? 0 then
        match alloc (blen c) with
        | Ok a => fo_status o = FSuccess /\ fo_buffer o = Some a /\ holds (fo_mem o) a c /\ only_within m (fo_mem o) a (blen c)
        | Err e => fo_status o = FErr e /\ fo_buffer o = buffer /\ fo_mem o = m
        | Panic => False
        end
      else
        fo_buffer o = buffer /\
        if size <? blen c then fo_status o = FErr BufferTooSmall /\ fo_mem o = m
        else if p =? 0 then fo_status o = FErr InvalidParameter /\ fo_mem o = m
        else fo_status o = FSuccess /\ holds (fo_mem o) p c /\ only_within m (fo_mem o) p (blen c)
  end.

(** ReadSection, for a section with data [c] and a buffer that is not longer: the buffer is allocated, or filled as far as it goes. *)
Definition section_read (m : mem) (c : list N) (alloc : N -> res efi_error N) (buffer size : N) (o : section_out) : Prop :=
  if buffer =? 0 then
    match alloc (blen c) with
    | Ok a => so_status o = FSuccess /\ so_size o = blen c /\ so_buffer o = a /\ holds (so_mem o) a c /\ only_within m (so_mem o) a (blen c)
    | Err e => so_status o = FErr e /\ so_size o = size /\ so_buffer o = buffer /\ so_mem o = m
    | Panic => False
    end
  else
    so_buffer o = buffer /\ so_size o = blen c /\ so_status o = (if size <? blen c then FWarnBufferTooSmall else FSuccess) /\
    holds (so_mem o) buffer (firstn (N.to_nat size) c) /\ only_within m (so_mem o) buffer size.

(** Asking for one file after the other, from key [key] on, until there is none: the names and types. *)
Fixpoint walk (ask : N -> option (res efi_error (N * list N * N * N * N))) (n : nat) (key : N) : option (list (list N * N)) :=
  match n with
  | O => None
  | S k =>
      match ask key with
      | Some (Ok (key', name, _, _, ty)) => match walk ask k key' with Some l => Some ((name, ty) :: l) | None => None end
      | Some (Err NotFound) => Some []
      | _ => None
      end
  end.
