(** The PE/COFF loader: patina_dxe_core/src/pecoff.rs, pecoff/relocation.rs and pecoff/resource_directory.rs.

    Bytes are numbers below 256, slices are lists.  The parsing of the headers by the crate goblin is not modelled:
    a [pe_info] is given.  Slices are shorter than 2^63 bytes, so sums of 32-bit values and offsets do not overflow
    [usize].  When a function fails the contents of the buffer it was writing is not modelled. *)
From Verif Require Import Base.Prelude Base.Bytes.
Local Open Scope N_scope.

(** pecoff/error.rs:13-24.  [PFuel] is the model's own: a loop ran out of fuel ([parse_blocks_fuel] shows that this
    does not happen). *)
Inductive perr := PTooShort | PParse | PMalformed | PFuel.

Definition blen {A} (l : list A) : N := N.of_nat (length l).

(** goblin's [SectionTable], the fields used. *)
Record section := Sec { sc_name : list N; sc_vsize : N; sc_va : N; sc_rawsize : N; sc_rawptr : N; sc_flags : N }.

(** pecoff.rs:51-84 [UefiPeInfo], [HeaderType]; without the file name. *)
Record pe_info := Pe {
  pe_te : option N;                 (* HeaderType::Te(rva_offset) *)
  pe_base_at : N;                   (* image_base_header_field_offset *)
  pe_entry : N; pe_type : N;
  pe_size : N;                      (* size_of_image *)
  pe_align : N; pe_headers : N;
  pe_sections : list section;
  pe_reloc : option (N * N);        (* virtual address, size *)
  pe_nx : bool }.

(** pecoff.rs:178-191 [read_filename], for bytes below 128 (there [from_utf8_lossy] changes nothing). *)
Definition NUL := 0.
Fixpoint until_nul (l : list N) : list N := match l with [] => [] | c :: t => if c =? 0 then [] else c :: until_nul t end.
Definition list_eqb (a b : list N) : bool := if list_eq_dec N.eq_dec a b then true else false.
Definition ends_with (l s : list N) : bool := (length s <=? length l)%nat && list_eqb (skipn (length l - length s) l) s.
(** What follows the last slash or backslash; all if there is none. *)
Fixpoint after_slash (l : list N) : list N :=
  match l with
  | [] => []
  | c :: t => if existsb (fun x => (x =? 0x2f) || (x =? 0x5c)) t then after_slash t
              else if (c =? 0x2f) || (c =? 0x5c) then t else l
  end.
Definition PDB : list N := [0x2e; 0x70; 0x64; 0x62].
Definition DLL : list N := [0x2e; 0x64; 0x6c; 0x6c].
Definition EFI : list N := [0x2e; 0x65; 0x66; 0x69].
Definition read_filename (bytes : list N) : list N :=
  let f := until_nul bytes in
  let f := if ends_with f PDB || ends_with f DLL then firstn (length f - 4) f else f in
  after_slash f ++ EFI.

(** ** Loading *)

(** [dst[o..o+l.len()].copy_from_slice(l)]. *)
Definition put (b : list N) (o : N) (l : list N) : list N :=
  firstn (N.to_nat o) b ++ l ++ skipn (N.to_nat o + length l) b.
(** [b.get(o..o+n)]. *)
Definition get (b : list N) (o n : N) : option (list N) :=
  if o + n <=? blen b then Some (firstn (N.to_nat n) (skipn (N.to_nat o) b)) else None.

(** pecoff.rs:223-226. *)
Definition copy_size (s : section) : N :=
  if (sc_vsize s =? 0) || (sc_rawsize s <? sc_vsize s) then sc_rawsize s else sc_vsize s.

(** pecoff.rs:222-235. *)
Fixpoint load_sections (image : list N) (l : list section) (buf : list N) : res perr (list N) :=
  match l with
  | [] => Ok buf
  | s :: t =>
    let size := copy_size s in
    match get buf (sc_va s) size with
    | None => Err PTooShort
    | Some _ =>
      match get image (sc_rawptr s) size with
      | None => Err PTooShort
      | Some src => load_sections image t (put buf (sc_va s) src)
      end
    end
  end.

(** pecoff.rs:213-237 [load_image]. *)
Definition load_image (info : pe_info) (image buf : list N) : res perr (list N) :=
  let buf := repeat 0 (length buf) in
  match get buf 0 (pe_headers info) with
  | None => Err PTooShort
  | Some _ =>
    match get image 0 (pe_headers info) with
    | None => Err PTooShort
    | Some src => load_sections image (pe_sections info) (put buf 0 src)
    end
  end.

(** ** Relocation tables *)

(** relocation.rs:19-29.  A relocation is its 16-bit entry and the recorded value. *)
Record rblock := Block { rb_page : N; rb_size : N; rb_relocs : list (N * N) }.

(** relocation.rs:40-42: entries while the block has [left] bytes to go. *)
Fixpoint parse_entries (left : N) (rest : list N) : res perr (list (N * N) * N * list N) :=
  if left =? 0 then Ok ([], 0, rest)
  else
    match rest with
    | a :: b :: t =>
      let* x := parse_entries (left - 2) t in
      let '(l, used, rest') := x in Ok ((a + 256 * b, 0) :: l, used + 2, rest')
    | _ => Err PParse
    end.

(** relocation.rs:35-47; [rest] are the bytes from [offset] on. *)
Fixpoint parse_blocks (fuel : nat) (offset : N) (rest : list N) : res perr (list rblock) :=
  match rest with
  | [] => Ok []
  | _ =>
    match fuel with
    | O => Err PFuel
    | S k =>
      if blen rest <? 8 then Err PParse
      else
        let page := le_at rest 0 4 in
        let size := le_at rest 4 4 in
        let* x := parse_entries (size - 8) (skipn 8 rest) in
        let '(l, used, rest') := x in
        let o := offset + 8 + used in
        let o' := (o + 3) / 4 * 4 in
        let* bs := parse_blocks k o' (skipn (N.to_nat (o' - o)) rest') in
        Ok (Block page size l :: bs)
    end
  end.
Definition parse_relocation_blocks (data : list N) : res perr (list rblock) := parse_blocks (length data) 0 data.

(** ** Relocating *)

(** scroll's [pread_with] and [pwrite_with] of a little-endian integer of [w] bytes. *)
Definition pread (b : list N) (o : N) (w : nat) : res perr N :=
  if o + N.of_nat w <=? blen b then Ok (le_at b (N.to_nat o) w) else Err PParse.
Definition pwrite (b : list N) (v o : N) (w : nat) : res perr (list N) :=
  if o + N.of_nat w <=? blen b then Ok (put b o (le_bytes w v)) else Err PParse.

(** pecoff.rs:283-312: the relocations of one block. [prev] are the recorded values of the same block, if there is a
    record. *)
Fixpoint fix_entries (dbg : bool) (adj rva page : N) (prev : option (list N)) (l : list (N * N)) (image : list N)
  : res perr (list N * list (N * N)) :=
  match l with
  | [] => Ok (image, [])
  | (to, v0) :: t =>
    let prev' := match prev with Some (_ :: p) => Some p | Some [] => Some [] | None => None end in
    let* fixup := usub dbg (page + to mod 4096) rva in
    let kind := to / 4096 in
    let* x :=
      (if kind =? 0 then Ok (image, v0)
       else if kind =? 3 then
         let* v := pread image fixup 4 in
         let* image' := pwrite image ((v + adj) mod two32) fixup 4 in
         Ok (image', v0)
       else if kind =? 10 then
         let* v := pread image fixup 8 in
         let* image' := pwrite image ((v + adj) mod two64) fixup 8 in
         match prev with
         | None => let* image'' := pwrite image' ((v + adj) mod two64) fixup 8 in Ok (image'', (v + adj) mod two64)
         | Some [] => Panic
         | Some (p :: _) =>
           if p =? v then let* image'' := pwrite image' ((v + adj) mod two64) fixup 8 in Ok (image'', (v + adj) mod two64)
           else Ok (image', v0)
         end
       else Panic) in
    let '(image', v') := x in
    let* y := fix_entries dbg adj rva page prev' t image' in
    let '(image'', l') := y in Ok (image'', (to, v') :: l')
  end.

(** pecoff.rs:282-313. *)
Fixpoint fix_blocks (dbg : bool) (adj rva : N) (prev : option (list rblock)) (l : list rblock) (image : list N)
  : res perr (list N * list rblock) :=
  match l with
  | [] => Ok (image, [])
  | b :: t =>
    let p := match prev with Some (q :: _) => Some (map snd (rb_relocs q)) | Some [] => Some [] | None => None end in
    let prev' := match prev with Some (_ :: q) => Some q | Some [] => Some [] | None => None end in
    let* x := fix_entries dbg adj rva (rb_page b) p (rb_relocs b) image in
    let '(image', rs) := x in
    let* y := fix_blocks dbg adj rva prev' t image' in
    let '(image'', l') := y in Ok (image'', Block (rb_page b) (rb_size b) rs :: l')
  end.

Definition rva_offset (info : pe_info) : N := match pe_te info with Some r => r | None => 0 end.

(** pecoff.rs:254-315 [relocate_image]. *)
Definition relocate_image (dbg : bool) (info : pe_info) (destination : N) (image : list N) (prev : list rblock)
  : res perr (list N * list rblock) :=
  let rva := rva_offset info in
  let* base := pread image (pe_base_at info) 8 in
  let* d := usub dbg destination rva in
  let* image1 := pwrite image d (pe_base_at info) 8 in
  let* s := uadd dbg base rva in
  let adj := (destination + two64 - s) mod two64 in
  match pe_reloc info with
  | None => Ok (image1, [])
  | Some (va, size) =>
    if adj =? 0 then Ok (image1, [])
    else
      match get image1 va size with
      | None => Err PTooShort
      | Some data =>
        let* bs := parse_relocation_blocks data in
        if (length prev =? 0)%nat || (length bs =? length prev)%nat then
          fix_blocks dbg adj rva (match prev with [] => None | _ => Some prev end) bs image1
        else Panic
      end
  end.

(** pecoff.rs:318-355 [flatten_runtime_relocation_data]; the final [debug_assert] compares the sum of the sizes with
    the length and holds. *)
Fixpoint flatten_entries (l : list (N * N)) : res perr (list N) :=
  match l with
  | [] => Ok []
  | (to, v) :: t =>
    let kind := to / 4096 in
    let* here := (if kind =? 0 then Ok [] else if kind =? 3 then Ok (le_bytes 4 v) else if kind =? 10 then Ok (le_bytes 8 v) else Panic) in
    let* rest := flatten_entries t in Ok (here ++ rest)
  end.
Fixpoint flatten (l : list rblock) : res perr (list N) :=
  match l with
  | [] => Ok []
  | b :: t => let* here := flatten_entries (rb_relocs b) in let* rest := flatten t in Ok (here ++ rest)
  end.

(** ** The HII resource *)

(** resource_directory.rs:31-39; u16 addition panics in a debug build and wraps otherwise. *)
Definition u16op (dbg : bool) (x : N) : res perr N := if x <? two16 then Ok x else if dbg then Panic else Ok (x mod two16).
Definition dir_size (dbg : bool) (named ids : N) : res perr N := let* n := u16op dbg (named + ids) in Ok (16 + n * 8).

(** [resource_section.pread::<Directory>(o)]: the two entry counts. *)
Definition read_dir (b : list N) (o : N) : res perr (N * N) :=
  if o + 16 <=? blen b then Ok (le_at b (N.to_nat o + 12) 2, le_at b (N.to_nat o + 14) 2) else Err PParse.
(** [pread::<DirectoryEntry>(o)]: id and data. *)
Definition read_entry (b : list N) (o : N) : res perr (N * N) :=
  if o + 8 <=? blen b then Ok (le_at b (N.to_nat o) 4, le_at b (N.to_nat o + 4) 4) else Err PParse.
Definition top_bit (x : N) : bool := 0x80000000 <=? x.
Definition low31 (x : N) : N := x mod 0x80000000.

(** pecoff.rs:419-462: one step down into a subdirectory, if the entry is one. *)
Definition descend (dbg : bool) (b : list N) (size : N) (e : N * N) : res perr (N * N) :=
  if top_bit (snd e) then
    let o := low31 (snd e) in
    if size <? o then Err PTooShort
    else
      let* d := read_dir b o in
      let* n := dir_size dbg (fst d) (snd d) in
      if size <? o + n then Err PTooShort else read_entry b (o + 16)
  else Ok e.

(** pecoff.rs:417-418: L"HII" from the second byte of its length on. *)
Definition HII : list N := [0; 0x48; 0; 0x49; 0; 0x49].

(** pecoff.rs:399-482: the loop over the named entries.  [Ok (inl r)]: the function returns; the entry changes only
    when the loop has found the name and gone down. *)
Fixpoint named_loop (dbg : bool) (b : list N) (size : N) (n : nat) (e : N * N) : res perr (option (N * N)) :=
  match n with
  | O => Ok None
  | S k =>
    if top_bit (fst e) then
      let no := low31 (fst e) in
      if size <=? no then Err PTooShort
      else
        if blen b <? no + 2 then Err PParse
        else
          let len := le_at b (N.to_nat no) 2 in
          let* twice := u16op dbg (len * 2) in
          match get b (no + 1) twice with
          | None => Err PTooShort
          | Some s =>
            if (len =? 3) && list_eqb s HII then
              let* e1 := descend dbg b size e in
              let* e2 := (if top_bit (snd e) then descend dbg b size e1 else Ok e1) in
              if top_bit (snd e2) then named_loop dbg b size k e2
              else if size <=? snd e2 then Err PTooShort
              else if blen b <? snd e2 + 16 then Err PParse
              else Ok (Some (le_at b (N.to_nat (snd e2)) 4, le_at b (N.to_nat (snd e2) + 4) 4))
            else named_loop dbg b size k e
          end
    else named_loop dbg b size k e
  end.

(** ".rsrc" filled with zeros; [trim_end_matches('\0')]. *)
Definition RSRC : list N := [0x2e; 0x72; 0x73; 0x72; 0x63].
Fixpoint trim_nul (l : list N) : list N :=
  match l with [] => [] | c :: t => match trim_nul t with [] => if c =? 0 then [] else [c] | t' => c :: t' end end.

(** pecoff.rs:369-486 [load_resource_section]. *)
Fixpoint load_resource (dbg : bool) (image : list N) (l : list section) : res perr (option (N * N)) :=
  match l with
  | [] => Ok None
  | s :: t =>
    if list_eqb (trim_nul (sc_name s)) RSRC then
      let size := copy_size s in
      if two32 <=? sc_rawptr s + size then Err PMalformed
      else
        match get image (sc_rawptr s) size with
        | None => Err PTooShort
        | Some b =>
          let* d := read_dir b 0 in
          let* n := dir_size dbg (fst d) (snd d) in
          if size <? n then Err PTooShort
          else
            let* e := read_entry b 16 in
            let* r := named_loop dbg b size (N.to_nat (fst d)) e in
            match r with Some x => Ok (Some x) | None => load_resource dbg image t end
        end
    else load_resource dbg image t
  end.
