(** Performance records and the boot performance table: sdk/patina/src/performance/record.rs:39-228,
    record/extended.rs:55-295, record/hob.rs:46-80, record/known.rs:43-247, table.rs:82-290 and measurement.rs:110-382.
    Memory is that of [Mm.Model].  The dependency [scroll] is not in /repo: its [gwrite_with] is taken to fail when the
    offset is not below the length of the buffer or the value does not fit behind it, and to write nothing then.
    Not modelled: log output, the floating-point conversion of ticks to nanoseconds (the timestamp is an input), the
    locking of the table (C17), and the buffer exchange of _smm.rs with management mode, of which only the answers are. *)
From Verif Require Import Base.Prelude Base.Bytes Mm.Model.
Local Open Scope N_scope.

Definition len (l : list N) : N := N.of_nat (length l).

(** ** Records *)

(** A record as [write_into] sees it: type, revision and the values its [write_data_into] writes, in order. *)
Record prec := PRec { p_type : N; p_rev : N; p_chunks : list (list N) }.

(** A record as the iterator returns it (record.rs:64-77); the data is one slice. *)
Record grec := GRec { g_type : N; g_len : N; g_rev : N; g_data : list N }.

(** record.rs:79-92. *)
Definition generic (g : grec) : prec := PRec (g_type g) (g_rev g) [g_data g].

(** extended.rs:55-61, 120-128, 181-190, 233-240 and 285-294; GUIDs are their sixteen bytes, strings their bytes. *)
Definition guid_event (id acpi time : N) (guid : list N) : prec :=
  PRec 0x1010 1 [le_bytes 2 id; le_bytes 4 acpi; le_bytes 8 time; guid].
Definition string_event (id acpi time : N) (guid s : list N) : prec :=
  PRec 0x1011 1 [le_bytes 2 id; le_bytes 4 acpi; le_bytes 8 time; guid; s; [0]].
Definition dual_guid_event (id acpi time : N) (g1 g2 s : list N) : prec :=
  PRec 0x1012 1 [le_bytes 2 id; le_bytes 4 acpi; le_bytes 8 time; g1; g2; s; [0]].
Definition qword_event (id acpi time : N) (guid : list N) (q : N) : prec :=
  PRec 0x1013 1 [le_bytes 2 id; le_bytes 4 acpi; le_bytes 8 time; guid; le_bytes 8 q].
Definition qword_string_event (id acpi time : N) (guid : list N) (q : N) (s : list N) : prec :=
  PRec 0x1014 1 [le_bytes 2 id; le_bytes 4 acpi; le_bytes 8 time; guid; le_bytes 8 q; s; [0]].

(** table.rs:256-290: the first record of the table, all times zero. *)
Definition basic_boot : prec :=
  PRec 2 2 [repeat 0 4; le_bytes 8 0; le_bytes 8 0; le_bytes 8 0; le_bytes 8 0; le_bytes 8 0].

(** One [gwrite_with], into a vector and into a range of memory. *)
Definition put_list (l : list N) (off : N) (c : list N) : option (list N) :=
  if len l <=? off then None
  else if len l <? off + len c then None
  else Some (firstn (N.to_nat off) l ++ c ++ skipn (N.to_nat (off + len c)) l).

Definition put_mem (base cap : N) (m : mem) (off : N) (c : list N) : option mem :=
  if cap <=? off then None
  else if cap <? off + len c then None
  else Some (writem m (base + off) c).

(** Writes until one fails. *)
Fixpoint write_chunks {S} (put : S -> N -> list N -> option S) (s : S) (off : N) (cs : list (list N)) : S * option N :=
  match cs with
  | [] => (s, Some off)
  | c :: r => match put s off c with
              | None => (s, None)
              | Some s' => write_chunks put s' (off + len c) r
              end
  end.

(** record.rs:39-59 [write_into]: the size written, if nothing failed, and what was written in any case. *)
Definition write_into {S} (put : S -> N -> list N -> option S) (s : S) (off : N) (r : prec) : S * option N :=
  match write_chunks put s off (le_bytes 2 (p_type r) :: [0] :: [p_rev r] :: p_chunks r) with
  | (s1, None) => (s1, None)
  | (s1, Some e) =>
      match put s1 (off + 2) [(e - off) mod 256] with
      | None => (s1, None)
      | Some s2 => (s2, Some (e - off))
      end
  end.

(** error.rs:27-43. *)
Inductive perr := POutOfResources | PBufferTooSmall | PEfi (e : efi_error) | PDebugAssert.

(** record.rs:95-100; a published buffer is a range of memory with the offset of the next record. *)
Inductive pbuf := Unpublished (l : list N) | Published (base cap off : N).

(** record.rs:20. *)
Definition MAX_RECORD : N := 255.

(** record.rs:109-122 [push_record]. *)
Definition push_record (dbg : bool) (m : mem) (b : pbuf) (r : prec) : res perr N * mem * pbuf :=
  match b with
  | Unpublished l =>
      match write_into put_list (l ++ repeat 0 (N.to_nat MAX_RECORD)) (len l) r with
      | (l', None) => (debug_fail dbg (Err PDebugAssert), m, Unpublished l')
      | (l', Some n) => (Ok n, m, Unpublished (firstn (N.to_nat (len l + n)) l'))
      end
  | Published base cap off =>
      match write_into (put_mem base cap) m off r with
      | (m', None) => (Err POutOfResources, m', b)
      | (m', Some n) => (Ok n, m', Published base cap (off + n))
      end
  end.

(** record.rs:125-139 [report]. *)
Definition report (dbg : bool) (m : mem) (b : pbuf) (base cap : N) : res perr unit * mem * pbuf :=
  match b with
  | Published _ _ _ => (debug_fail dbg (Err PDebugAssert), m, b)
  | Unpublished l =>
      if cap <? len l then (Err PBufferTooSmall, m, b)
      else (Ok tt, writem m base l, Published base cap (len l))
  end.

(** record.rs:142-160. *)
Definition buffer_of (m : mem) (b : pbuf) : list N :=
  match b with Unpublished l => l | Published base _ off => readm m base (N.to_nat off) end.
Definition size_of (b : pbuf) : N := match b with Unpublished l => len l | Published _ _ off => off end.

(** record.rs:215-227: one record from the front; reading past the end panics ([unwrap], slicing). *)
Definition next_record (l : list N) : res unit (grec * list N) :=
  if len l <? 4 then Panic
  else
    let n := nth 2 l 0 in
    if n <? 4 then Panic
    else if len l <? n then Panic
    else Ok (GRec (le_at l 0 2) n (nth 3 l 0) (firstn (N.to_nat (n - 4)) (skipn 4 l)), skipn (N.to_nat n) l).

Fixpoint iter_fuel (fuel : nat) (l : list N) : res unit (list grec) :=
  match l with
  | [] => Ok []
  | _ => match fuel with
         | O => Err tt
         | S f => let* (g, rest) := next_record l in
                  let* gs := iter_fuel f rest in Ok (g :: gs)
         end
  end.
(** Each record takes at least four bytes, so the length is fuel enough; [Err] is running out of it. *)
Definition iter (l : list N) : res unit (list grec) := iter_fuel (length l) l.

(** ** Records from HOBs *)

(** hob.rs:46-56 [parse]: the load image count and the bytes of the records. *)
Definition parse_hob (bytes : list N) : res unit (N * list N) :=
  if len bytes <? 12 then Ok (0, [])
  else
    let size := le_at bytes 0 4 in
    if len bytes <? 12 + size then Panic
    else Ok (le_at bytes 4 4, firstn (N.to_nat size) (skipn 12 bytes)).

Definition add32 {E} (dbg : bool) (a b : N) : res E N :=
  if a + b <? two32 then Ok (a + b) else if dbg then Panic else Ok ((a + b) mod two32).

(** Pushes all; the first error ends it (hob.rs:75-77). *)
Fixpoint push_all (dbg : bool) (m : mem) (b : pbuf) (gs : list grec) : res perr pbuf :=
  match gs with
  | [] => Ok b
  | g :: r => match push_record dbg m b (generic g) with
              | (Ok _, _, b') => push_all dbg m b' r
              | (Err e, _, _) => Err e
              | (Panic, _, _) => Panic
              end
  end.

(** hob.rs:66-80 [merge_hob_performance_buffer].  The iterator is lazy: a panic in it comes after the records before it
    were pushed, which nobody sees. *)
Fixpoint merge_hobs (dbg : bool) (m : mem) (count : N) (b : pbuf) (hobs : list (N * list N)) : res perr (N * pbuf) :=
  match hobs with
  | [] => Ok (count, b)
  | (c, data) :: r =>
      let* count' := add32 dbg count c in
      match iter data with
      | Ok gs => let* b' := push_all dbg m b gs in merge_hobs dbg m count' b' r
      | _ => Panic
      end
  end.

(** ** The table *)

(** table.rs:72-80; the length is in the table once there is one. *)
Record fbpt := Fbpt { f_addr : N; f_len : N; f_ptr : option N; f_recs : pbuf }.

(** table.rs:104-109: signature, length, header and data of the first record. *)
Definition EMPTY_TABLE : N := 56.
Definition SIGNATURE : N := 0x54504246.

(** table.rs:87-93. *)
Definition fbpt_new : fbpt := Fbpt 0 EMPTY_TABLE None (Unpublished []).

(** table.rs:96-102. *)
Definition table_length (m : mem) (f : fbpt) : N :=
  match f_ptr f with Some p => le_val (readm m p 4) | None => f_len f end.
Definition set_length (m : mem) (f : fbpt) (n : N) : mem * fbpt :=
  match f_ptr f with
  | Some p => (writem m p (le_bytes 4 n), f)
  | None => (m, Fbpt (f_addr f) n None (f_recs f))
  end.

(** table.rs:152-155 [set_perf_records]. *)
Definition set_perf_records (m : mem) (f : fbpt) (b : pbuf) : mem * fbpt :=
  let (m', f') := set_length m f ((EMPTY_TABLE + size_of b) mod two32) in
  (m', Fbpt (f_addr f') (f_len f') (f_ptr f') b).

(** table.rs:157-161 [add_record]. *)
Definition add_record (dbg : bool) (m : mem) (f : fbpt) (r : prec) : res perr unit * mem * fbpt :=
  match push_record dbg m (f_recs f) r with
  | (Ok n, m', b') =>
      let f' := Fbpt (f_addr f) (f_len f) (f_ptr f) b' in
      match add32 dbg (table_length m' f') (n mod two32) with
      | Ok t => let (m'', f'') := set_length m' f' t in (Ok tt, m'', f'')
      | Err e => (Err e, m', f')
      | Panic => (Panic, m', f')
      end
  | (Err e, m', b') => (Err e, m', Fbpt (f_addr f) (f_len f) (f_ptr f) b')
  | (Panic, m', b') => (Panic, m', Fbpt (f_addr f) (f_len f) (f_ptr f) b')
  end.

(** table.rs:43 and 111-140 [allocate_table_buffer]; [at_address] and [anywhere] are the page allocator: the first with a
    wanted address, the second below 4 GiB.  The result is the address and the size. *)
Definition EXTRA : N := 0x10000.
Definition table_pages (f : fbpt) : N := (EMPTY_TABLE + size_of (f_recs f) + EXTRA + 4095) / 4096.
Definition allocate_table (at_address : N -> N -> option N) (anywhere : N -> res efi_error N) (f : fbpt) (prev : option N) : res perr (N * N) :=
  let pages := table_pages f in
  let tried := match prev with Some a => at_address a pages | None => None end in
  match tried with
  | Some a => Ok (a, pages * 4096)
  | None => match anywhere pages with
            | Ok a => Ok (a, pages * 4096)
            | Err e => Err (PEfi e)
            | Panic => Panic
            end
  end.

(** table.rs:163-185 [report_table]. *)
Definition report_table (dbg : bool) (at_address : N -> N -> option N) (anywhere : N -> res efi_error N)
  (m : mem) (f : fbpt) (prev : option N) : res perr N * mem * fbpt :=
  match allocate_table at_address anywhere f prev with
  | Err e => (Err e, m, f)
  | Panic => (Panic, m, f)
  | Ok (a, size) =>
      let f1 := Fbpt a (f_len f) (f_ptr f) (f_recs f) in
      match put_mem a size m 0 (le_bytes 4 SIGNATURE) with
      | None => (Err PBufferTooSmall, m, f1)
      | Some m1 =>
          match put_mem a size m1 4 (le_bytes 4 (table_length m1 f1)) with
          | None => (Err PBufferTooSmall, m1, f1)
          | Some m2 =>
              match write_into (put_mem a size) m2 8 basic_boot with
              | (m3, None) => (Err PBufferTooSmall, m3, f1)
              | (m3, Some n) =>
                  let off := 8 + n in
                  if dbg && negb (EMPTY_TABLE =? off) then (Panic, m3, f1)
                  else if size <? off then (Panic, m3, f1)
                  else
                    match report dbg m3 (f_recs f) (a + off) (size - off) with
                    | (Ok _, m4, b) => (Ok a, m4, Fbpt a (f_len f) (Some (a + 4)) b)
                    | (Err e, m4, b) => (Err e, m4, Fbpt a (f_len f) (f_ptr f) b)
                    | (Panic, m4, b) => (Panic, m4, Fbpt a (f_len f) (f_ptr f) b)
                    end
              end
          end
      end
  end.

(** ** Records of management mode *)

(** What management mode answers when asked for bytes from an offset on: an error, or a success with the stated size and
    the 1024 bytes of the buffer (_smm.rs:197-219). *)
Inductive mm_answer := MmError | MmData (size : N) (bytes : list N).

(** measurement.rs:149-178; [None] is an answer of an error.  [Err] is running out of fuel. *)
Fixpoint fetch (fuel : nat) (ask : N -> mm_answer) (total : N) (got : list N) : res unit (option (list N)) :=
  if len got <? total then
    match fuel with
    | O => Err tt
    | S f =>
        match ask (len got) with
        | MmError => Ok None
        | MmData size bytes => if 1024 <? size then Panic else fetch f ask total (got ++ firstn (N.to_nat size) bytes)
        end
    end
  else Ok (Some got).

(** measurement.rs:181-186: errors are ignored. *)
Fixpoint add_all (dbg : bool) (m : mem) (f : fbpt) (gs : list grec) : res unit (mem * fbpt) :=
  match gs with
  | [] => Ok (m, f)
  | g :: r => match add_record dbg m f (generic g) with
              | (Panic, _, _) => Panic
              | (_, m', f') => add_all dbg m' f' r
              end
  end.

(** ** Measurements *)

(** known.rs:20-59. *)
Inductive token := SEC | DXE | PEI | BDS | DbStart | DbSupport | DbStop | LoadImage | StartImage | PEIM.
Definition token_bytes (t : token) : list N :=
  match t with
  | SEC => [83; 69; 67]
  | DXE => [68; 88; 69]
  | PEI => [80; 69; 73]
  | BDS => [66; 68; 83]
  | DbStart => [68; 66; 58; 83; 116; 97; 114; 116]
  | DbSupport => [68; 66; 58; 83; 117; 112; 112; 111; 114; 116]
  | DbStop => [68; 66; 58; 83; 116; 111; 112]
  | LoadImage => [76; 111; 97; 100; 73; 109; 97; 103; 101]
  | StartImage => [83; 116; 97; 114; 116; 73; 109; 97; 103; 101]
  | PEIM => [80; 69; 73; 77]
  end.
(** known.rs:61-80. *)
Definition tokens : list token := [SEC; DXE; PEI; BDS; DbStart; DbSupport; DbStop; LoadImage; StartImage; PEIM].
Definition token_of (s : list N) : option token := find (fun t => bytes_eqb s (token_bytes t)) tokens.

(** known.rs:85-156 and 218-247. *)
Definition known_ids : list N :=
  [0x00; 0x01; 0x02; 0x03; 0x04; 0x05; 0x06; 0x07; 0x08; 0x09; 0x0A; 0x10; 0x11; 0x20; 0x21; 0x30; 0x31; 0x40; 0x41; 0x50; 0x51].
Definition known_id (i : N) : bool := existsb (N.eqb i) known_ids.

(** performance_measurement.rs:33-40. *)
Inductive attr := PerfStart | PerfEnd | PerfEntry.
Definition is_start (a : attr) : bool := match a with PerfStart => true | _ => false end.

(** known.rs:159-215 [try_from_perf_info]. *)
Definition try_from_perf_info (handle : N) (s : option (list N)) (a : attr) : res efi_error N :=
  match s with
  | Some str =>
      match token_of str with
      | Some StartImage => Ok (if is_start a then 0x01 else 0x02)
      | Some LoadImage => Ok (if is_start a then 0x03 else 0x04)
      | Some DbStart => Ok (if is_start a then 0x05 else 0x06)
      | Some DbSupport => Ok (if is_start a then 0x07 else 0x08)
      | Some DbStop => Ok (if is_start a then 0x09 else 0x0A)
      | Some PEI | Some DXE | Some BDS => Ok (if is_start a then 0x50 else 0x51)
      | Some SEC | Some PEIM => Ok (if is_start a then 0x40 else 0x41)
      | None => Ok (if is_start a then 0x40 else 0x41)
      end
  | None => if negb (handle =? 0) then Ok (if is_start a then 0x40 else 0x41) else Err InvalidParameter
  end.

(** measurement.rs:220-238: the id of the record. *)
Definition perf_id (caller : N) (s : option (list N)) (identifier : N) (a : attr) : res efi_error N :=
  let id := identifier mod two16 in
  let is_token := match s with Some str => match token_of str with Some _ => true | None => false end | None => false end in
  match a with
  | PerfEntry => Ok id
  | _ =>
      if negb (id =? 0) && known_id id && is_token then Err InvalidParameter
      else if negb (id =? 0) && negb (known_id id) && negb is_token then
        match a with
        | PerfStart => Ok (if negb (N.land id 0x000F =? 0) then N.land id 0xFFF0 else id)
        | _ => Ok (if N.land id 0x000F =? 0 then (id + 1) mod two16 else id)
        end
      else if id =? 0 then try_from_perf_info caller s a
      else Ok id
  end.

(** "unknown name" *)
Definition unknown_name : list N := [117; 110; 107; 110; 111; 119; 110; 32; 110; 97; 109; 101].

(** The state: the count of loaded images (globals.rs:19), memory and the table. *)
Record pstate := PState { s_count : N; s_mem : mem; s_table : fbpt }.

Definition with_record (dbg : bool) (st : pstate) (r : prec) : res perr unit * pstate :=
  let '(x, m', f') := add_record dbg (s_mem st) (s_table st) r in (x, PState (s_count st) m' f').

Definition any_of (i : N) (l : list N) : bool := existsb (N.eqb i) l.

(** measurement.rs:274-382 [_create_performance_measurement].  [guid_of] is [get_module_guid_from_handle] (471-514),
    which never fails: where it finds nothing it returns the zero GUID; [peek] are the sixteen bytes at an address.
    Reading through a null pointer is counted as a panic. *)
Definition measure (dbg : bool) (guid_of peek : N -> list N) (st : pstate)
  (caller : N) (guid s : option (list N)) (time address id : N) (a : attr) : res perr unit * pstate :=
  if negb (known_id id) then
    match a with
    | PerfEntry => (Err (PEfi InvalidParameter), st)
    | _ => with_record dbg st (string_event id 0 time (guid_of caller) (match s with Some x => x | None => unknown_name end))
    end
  else if any_of id [0x01; 0x02] then with_record dbg st (guid_event id 0 time (guid_of caller))
  else if any_of id [0x03; 0x04] then
    let st' := if id =? 0x03 then PState ((s_count st + 1) mod two32) (s_mem st) (s_table st) else st in
    with_record dbg st' (qword_event id 0 time (guid_of caller) (s_count st'))
  else if any_of id [0x05; 0x06; 0x07; 0x08; 0x09] then with_record dbg st (qword_event id 0 time (guid_of caller) address)
  else if any_of id [0x0A] then with_record dbg st (qword_string_event id 0 time (guid_of caller) address [])
  else if any_of id [0x10; 0x11; 0x20; 0x21] then
    match s, guid with
    | Some f, Some g => if caller =? 0 then (Panic, st) else with_record dbg st (dual_guid_event id 0 time (peek caller) g f)
    | _, _ => (Err (PEfi InvalidParameter), st)
    end
  else if caller =? 0 then (Panic, st)
  else with_record dbg st (string_event id 0 time (peek caller) (match s with Some x => x | None => unknown_name end)).

(** measurement.rs:198-270 [create_performance_measurement] when performance measurement is enabled. *)
Definition create_measurement (dbg : bool) (guid_of peek : N -> list N) (st : pstate)
  (caller : N) (guid s : option (list N)) (time address identifier : N) (a : attr) : res efi_error unit * pstate :=
  match perf_id caller s identifier a with
  | Err e => (Err e, st)
  | Panic => (Panic, st)
  | Ok id =>
      match measure dbg guid_of peek st caller guid s time address id a with
      | (Ok _, st') => (Ok tt, st')
      | (Err POutOfResources, st') => (Err OutOfResources, st')
      | (Err (PEfi e), st') => (Err e, st')
      | (Err _, st') => (Err Aborted, st')
      | (Panic, st') => (Panic, st')
      end
  end.
