(** * The advanced logger's memory log

    components/patina_adv_logger/src/memory_log.rs, logger.rs, parser.rs. *)

From Verif Require Import Base.Prelude Base.Bytes Align.Model Log.Spec.
Open Scope N_scope.

(** [u32] addition: panics in a debug build, wraps in a release build. *)
Definition add32 (dbg : bool) (a b : N) : option N :=
  if a + b <? two32 then Some (a + b) else if dbg then None else Some ((a + b) mod two32).
Definition sub32 (dbg : bool) (a b : N) : option N :=
  if b <=? a then Some (a - b) else if dbg then None else Some (a + two32 - b).

(** AdvLoggerInfo, memory_log.rs:272-311, the fields the code reads.
    [size_of::<AdvLoggerInfo>()] is 80: u32, u16, [u16;3], 5 u32, 5 bool,
    [bool;3], 2 u64, a 16-byte time, u32, padded to 8. *)
Record info := Info {
  i_signature : N; i_version : N; i_off : N; i_cur : N; i_disc : N; i_size : N;
  i_hw_disabled : bool; i_freq : N; i_hw_level : N }.

Definition INFO_SIZE : N := 80.
Definition SIGNATURE : N := 1196379201.      (* 0x474F4C41 *)
Definition VERSION : N := 5.
(** [size_of::<AdvLoggerMessageEntry>()], a packed struct (memory_log.rs:387-407). *)
Definition ENTRY_SIZE : N := 24.
Definition ENTRY_SIGNATURE : N := 843926593. (* 0x324D4C41 *)

(** AdvancedLog, memory_log.rs:60-65: header and data region.  The region is
    a function from index to byte with its length; [l_rw] tells
    [LogData::ReadWrite] from [LogData::ReadOnly] (memory_log.rs:358-363). *)
Record log := Log { l_info : info; l_data : N -> N; l_len : N; l_rw : bool }.

(** full_size, memory_log.rs:352-354. *)
Definition full_size (dbg : bool) (h : info) : option N := add32 dbg (i_off h) (i_size h).

(** The slot size computed at memory_log.rs:190-192: the [usize] length is cast
    to [u32]; [align_up(..).unwrap()] panics when the sum does not fit. *)
Definition message_size (dbg : bool) (e : entry) : option N :=
  match add32 dbg ENTRY_SIZE (e_len e mod two32) with
  | None => None
  | Some u => match align_up 32 u 8 with Ok s => Some s | _ => None end
  end.

(** AdvLoggerMessageEntry::from_log_entry and new, memory_log.rs:425-441:
    [data.len() as u16]; the packed struct's bytes in order. *)
Definition header_bytes (e : entry) : list N :=
  le_bytes 4 ENTRY_SIGNATURE ++ le_bytes 1 2 ++ le_bytes 1 0 ++ le_bytes 4 (e_level e)
  ++ le_bytes 8 (e_time e) ++ le_bytes 2 (e_phase e) ++ le_bytes 2 (e_len e mod two16)
  ++ le_bytes 2 ENTRY_SIZE.

(** The bytes stored in a slot of [sz] bytes, memory_log.rs:229-237: header,
    data, zero fill. *)
Definition stored_bytes (e : entry) (sz : N) : list N :=
  header_bytes e ++ e_data e ++ repeat 0 (N.to_nat (sz - ENTRY_SIZE - e_len e)).

(** [bs] written at index [i]. *)
Definition write_at (f : N -> N) (i : N) (bs : list N) : N -> N :=
  fun a => if (i <=? a) && (a <? i + N.of_nat (length bs))
           then nth (N.to_nat (a - i)) bs 0 else f a.

Inductive outcome := Done | Failed (e : efi_error) | Panicked.

(** add_log_entry, memory_log.rs:180-240, run without interference: the
    compare-exchange then succeeds at once.  The concurrent version is in
    Log/Conc.v. *)
Definition add_log_entry (dbg : bool) (l : log) (e : entry) : outcome * log :=
  let h := l_info l in
  match message_size dbg e, full_size dbg h with
  | Some sz, Some full =>
      match add32 dbg (i_cur h) sz with
      | None => (Panicked, l)
      | Some next =>
          if next <=? full then
            let h' := Info (i_signature h) (i_version h) (i_off h) next (i_disc h) (i_size h)
                           (i_hw_disabled h) (i_freq h) (i_hw_level h) in
            let l' := Log h' (l_data l) (l_len l) (l_rw l) in
            match sub32 dbg (i_cur h) (i_off h) with
            | None => (Panicked, l')
            | Some idx =>
                if negb (l_rw l) then (Failed AccessDenied, l')
                else if l_len l <? idx + sz then (Failed BufferTooSmall, l')
                else if sz <? ENTRY_SIZE + e_len e then (Panicked, l')  (* split_at_mut *)
                else (Done, Log h' (write_at (l_data l) idx (stored_bytes e sz)) (l_len l) (l_rw l))
            end
          else
            (Failed OutOfResources,
             Log (Info (i_signature h) (i_version h) (i_off h) (i_cur h) ((i_disc h + sz) mod two32)
                       (i_size h) (i_hw_disabled h) (i_freq h) (i_hw_level h))
                 (l_data l) (l_len l) (l_rw l))
      end
  | _, _ => (Panicked, l)
  end.

(** [(&*data).get(i..i + n)]: [None] when out of range. *)
Definition get_slice (l : log) (i n : N) : option (list N) :=
  if i + n <=? l_len l
  then Some (map (fun k => l_data l (i + N.of_nat k)) (seq 0 (N.to_nat n)))
  else None.

(** AdvLogIterator::next, memory_log.rs:474-517; the state is the offset.  The
    counter is read as it stands.  [usize] sums of [u32] values do not overflow. *)
Definition iter_next (l : log) (off : N) : option (entry * N) :=
  let h := l_info l in
  if i_cur h <? off + ENTRY_SIZE then None
  else
    let idx := off - i_off h in
    match get_slice l idx ENTRY_SIZE with
    | None => None
    | Some hs =>
        let len := le_at hs 20 2 in
        if i_cur h <? off + ENTRY_SIZE + len then None
        else
          match get_slice l (idx + ENTRY_SIZE) len with
          | None => None
          | Some d =>
              match align_up 64 (ENTRY_SIZE + len) 8 with
              | Ok a => Some (Entry (le_at hs 18 2) (le_at hs 6 4) (le_at hs 10 8) d, off + a)
              | _ => None    (* unwrap; cannot happen for a 16-bit length *)
              end
          end
    end.

(** Collecting the iterator; [None] is "out of fuel". *)
Fixpoint iter_collect (fuel : nat) (l : log) (off : N) : option (list entry) :=
  match fuel with
  | O => None
  | S fuel' =>
      match iter_next l off with
      | None => Some []
      | Some (e, off') => option_map (cons e) (iter_collect fuel' l off')
      end
  end.

(** AdvancedLog::iter, memory_log.rs:246-248 and 465-467. *)
Definition iter (l : log) : option (list entry) :=
  iter_collect (S (N.to_nat (i_cur (l_info l)))) l (i_off (l_info l)).

(** AdvLoggerInfo::new, memory_log.rs:320-348, with the arguments of
    initialize_memory_log. *)
Definition info_new (length : N) : info :=
  Info SIGNATURE VERSION INFO_SIZE INFO_SIZE 0 (length - INFO_SIZE) false 0 0.

(** adopt_memory_log, memory_log.rs:82-104: the header and bytes found at the
    address. *)
Definition adopt_memory_log (h : info) (data : N -> N) : option log :=
  if negb (i_signature h =? SIGNATURE) || negb (i_version h =? VERSION) || (i_off h <? INFO_SIZE)
  then None
  else Some (Log h data (i_size h) true).

(** initialize_memory_log, memory_log.rs:115-134; [data] is what the memory
    behind the header holds. *)
Definition initialize_memory_log (address length : N) (data : N -> N) : option log :=
  if (length <? INFO_SIZE) || negb (address mod 8 =? 0) then None
  else if address =? 0 then None
  else adopt_memory_log (info_new length) data.

(** The header decoded from raw bytes, repr(C) layout of memory_log.rs:272-311. *)
Definition read_info (b : list N) : info :=
  Info (le_at b 0 4) (le_at b 4 2) (le_at b 12 4) (le_at b 20 4) (le_at b 24 4) (le_at b 28 4)
       (negb (le_at b 36 1 =? 0)) (le_at b 40 8) (le_at b 72 4).

(** open_log, memory_log.rs:140-178. *)
Definition open_log (dbg : bool) (b : list N) : res efi_error log :=
  let n := N.of_nat (length b) in
  if n <? INFO_SIZE then Err BufferTooSmall
  else
    let h := read_info b in
    if negb (i_signature h =? SIGNATURE) then Err InvalidParameter
    else if negb (i_version h =? VERSION) then Err Unsupported
    else if i_cur h <? i_off h then Err InvalidParameter
    else
      match full_size dbg h with
      | None => Panic
      | Some full =>
          if (full <? i_cur h) || (i_off h <? INFO_SIZE) then Err InvalidParameter
          else if n mod two32 <? i_cur h then Err BufferTooSmall
          else if n <? i_off h then Panic      (* split_at *)
          else
            let d := skipn (N.to_nat (i_off h)) b in
            Ok (Log h (fun k => nth (N.to_nat k) d 0) (N.of_nat (length d)) false)
      end.

(** hardware_write_enabled, memory_log.rs:242-244. *)
Definition hardware_write_enabled (l : log) (level : N) : bool :=
  negb (i_hw_disabled (l_info l)) && negb (N.land level (i_hw_level (l_info l)) =? 0).

(** set_frequency, memory_log.rs:254-257. *)
Definition set_frequency (l : log) (f : N) : log :=
  let h := l_info l in
  Log (Info (i_signature h) (i_version h) (i_off h) (i_cur h) (i_disc h) (i_size h) (i_hw_disabled h)
            (if i_freq h =? 0 then f else i_freq h) (i_hw_level h))
      (l_data l) (l_len l) (l_rw l).

(** ** The buffered writer between the formatter and the log, logger.rs:143-202 *)

Definition WRITER_BUFFER_SIZE : N := 128.

(** Writer state: the buffered bytes, and every chunk handed to [log_write]
    so far, newest last. *)
Record writer := Writer { w_buf : list N; w_out : list (list N) }.

Definition w_new : writer := Writer [] [].

(** flush, logger.rs:167-175. *)
Definition w_flush (w : writer) : writer :=
  match w_buf w with [] => w | b => Writer [] (w_out w ++ [b]) end.

(** write_str, logger.rs:182-201; copying past the 128-byte array panics. *)
Definition w_write_str (w : writer) (s : list N) : option writer :=
  let len := N.of_nat (length s) in
  let used w := N.of_nat (length (w_buf w)) in
  if len <? WRITER_BUFFER_SIZE then
    let w := if WRITER_BUFFER_SIZE - used w <? len then w_flush w else w in
    if WRITER_BUFFER_SIZE <? used w + len then None
    else Some (Writer (w_buf w ++ s) (w_out w))
  else
    let w := w_flush w in
    Some (Writer (w_buf w) (w_out w ++ [s])).

Fixpoint w_write_all (w : writer) (ss : list (list N)) : option writer :=
  match ss with
  | [] => Some w
  | s :: r => match w_write_str w s with Some w' => w_write_all w' r | None => None end
  end.

(** Log::log for an enabled record, logger.rs:118-125: the formatter issues
    [ss]; the chunks passed to log_write. *)
Definition log_record (ss : list (list N)) : option (list (list N)) :=
  option_map (fun w => w_out (w_flush w)) (w_write_all w_new ss).

(** log_write, logger.rs:59-75, on the port and the memory log. *)
Definition log_write (dbg : bool) (level time : N) (st : list N * option log) (data : list N)
  : option (list N * option log) :=
  let '(port, ml) := st in
  match ml with
  | None => Some (port ++ data, None)
  | Some l =>
      let hw := hardware_write_enabled l level in
      match add_log_entry dbg l (Entry 4 level time data) with
      | (Panicked, _) => None
      | (_, l') => Some (if hw then port ++ data else port, Some l')
      end
  end.

(** Log::enabled, logger.rs:108-116: levels as numbers, Error = 1 .. Trace = 5,
    Off = 0; the first filter whose name is a prefix of the target decides. *)
Fixpoint is_prefix (p s : list N) : bool :=
  match p, s with
  | [], _ => true
  | x :: p', y :: s' => (x =? y) && is_prefix p' s'
  | _, [] => false
  end.

Definition enabled (filters : list (list N * N)) (max_level : N) (target : list N) (level : N) : bool :=
  level <=? match find (fun f => is_prefix (fst f) target) filters with
            | Some (_, lv) => lv
            | None => max_level
            end.

(** ** The parser, parser.rs *)

(** What write_log emits, parser.rs:48-78: metadata of an entry or raw bytes. *)
Inductive item := Meta (level phase time : N) | Bytes (b : list N).

Definition ends_in_newline (m : list N) : bool :=
  match rev m with x :: _ => x =? 10 | [] => false end.

Fixpoint write_entries (meta : bool) (carry : option entry) (es : list entry) : list item :=
  match es with
  | [] => []
  | e :: r =>
      let carry := match carry with
                   | Some c => if negb (e_phase c =? e_phase e) then None else Some c
                   | None => None
                   end in
      let m := if meta && match carry with None => true | _ => false end
               then [Meta (e_level e) (e_phase e) (e_time e)] else [] in
      m ++ Bytes (e_data e) :: write_entries meta (if ends_in_newline (e_data e) then None else Some e) r
  end.

Definition write_log (meta : bool) (l : log) : option (list item) :=
  option_map (write_entries meta None) (iter l).

(** get_time_str, parser.rs:81-98: hours, minutes, seconds, milliseconds; the
    raw time stamp without a frequency; [Panic] on a division by zero. *)
Definition get_time (t f : N) : res efi_error (N + N * N * N * N) :=
  if f =? 0 then Ok (inl t)
  else if f / 1000 =? 0 then Panic
  else
    let ms := t / (f / 1000) in
    let milliseconds := ms mod 1000 in
    let s := ms / 1000 in
    let seconds := s mod 60 in
    let m := s / 60 in
    let minutes := m mod 60 in
    let hours := (m / 60) mod 24 in
    Ok (inr (hours, minutes, seconds, milliseconds)).
