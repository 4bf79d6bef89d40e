(** Communication with management mode: the buffers of components/patina_mm/src/config.rs:74-534, the service of
    components/patina_mm/src/component/communicator.rs:104-214 and the trigger of component/sw_mmi_manager.rs:100-147.
    Not modelled: log output, [Debug] and [Display], and a trigger service that calls [communicate] again (the
    [RefCell] of the service would panic). *)
From Verif Require Import Base.Prelude Base.Bytes.
Local Open Scope N_scope.

(** Memory, byte by byte.  Buffers are ranges of it, so that two may overlap or be clones of each other. *)
Definition mem := N -> N.

Definition readm (m : mem) (a : N) (n : nat) : list N := map (fun i => m (a + N.of_nat i)) (seq 0 n).
Definition writem (m : mem) (a : N) (l : list N) : mem :=
  fun x => if (a <=? x) && (x <? a + N.of_nat (length l)) then nth (N.to_nat (x - a)) l 0 else m x.

(** config.rs:137-151. *)
Inductive cstatus := TooSmallForHeader | TooSmallForMessage | InvalidRecipient | NoBuffer | NotAligned | AddressValidationFailed.

(** config.rs:156-168 [CommunicateBuffer]; a GUID is its sixteen bytes in memory. *)
Record cbuf := CBuf { cb_addr : N; cb_len : N; cb_id : N; cb_rcpt : option (list N); cb_mlen : N }.

(** config.rs:82-111: GUID and message length. *)
Definition HEADER : N := 24.
Definition header_bytes (guid : list N) (len : N) : list N := guid ++ le_bytes 8 len.

(** config.rs:178-187 [new]. *)
Definition buf_new (m : mem) (addr len id : N) : cbuf * mem :=
  (CBuf addr len id None 0, writem m addr (repeat 0 (N.to_nat len))).

(** config.rs:216-242 [from_raw_parts]. *)
Definition from_raw_parts (m : mem) (addr size id : N) : res cstatus (cbuf * mem) :=
  if size <? HEADER then Err TooSmallForHeader
  else if addr =? 0 then Err NoBuffer
  else if negb (N.land addr 0xFFF =? 0) then Err NotAligned
  else if u64_max - size <? addr then Err AddressValidationFailed
  else Ok (buf_new m addr size id).

(** config.rs:267-291 [from_firmware_region], where [usize] has 64 bits. *)
Definition from_firmware_region (m : mem) (addr size id : N) : res cstatus (cbuf * mem) :=
  if two64 <=? addr + size then Err AddressValidationFailed else from_raw_parts m addr size id.

(** config.rs:329-331. *)
Definition message_capacity (b : cbuf) : N := cb_len b - HEADER.

Fixpoint bytes_eqb (a b : list N) : bool :=
  match a, b with
  | [], [] => true
  | x :: a', y :: b' => (x =? y) && bytes_eqb a' b'
  | _, _ => false
  end.

(** config.rs:338-385 [verify_state_consistency]. *)
Definition verify (m : mem) (b : cbuf) : res cstatus unit :=
  if cb_len b <? HEADER then Err TooSmallForHeader
  else if negb (bytes_eqb (readm m (cb_addr b) 16) (match cb_rcpt b with Some g => g | None => repeat 0 16 end)) then Err InvalidRecipient
  else if negb (le_val (readm m (cb_addr b + 16) 8) =? cb_mlen b) then Err TooSmallForMessage
  else Ok tt.

(** config.rs:395-416 [validate_capacity]. *)
Definition validate_capacity (b : cbuf) (n : N) : res cstatus unit :=
  if cb_len b <? HEADER then Err TooSmallForHeader
  else if cb_len b - HEADER <? n then Err TooSmallForMessage
  else Ok tt.

(** config.rs:424-443 [set_message_info]. *)
Definition set_message_info (m : mem) (b : cbuf) (guid : list N) : res cstatus unit * mem * cbuf :=
  match validate_capacity b 0 with
  | Ok _ =>
      let b' := CBuf (cb_addr b) (cb_len b) (cb_id b) (Some guid) (cb_mlen b) in
      let m' := writem m (cb_addr b) (header_bytes guid (cb_mlen b)) in
      (verify m' b', m', b')
  | e => (e, m, b)
  end.

(** config.rs:452-482 [set_message]. *)
Definition set_message (m : mem) (b : cbuf) (msg : list N) : res cstatus unit * mem * cbuf :=
  let n := N.of_nat (length msg) in
  match validate_capacity b n with
  | Ok _ =>
      match cb_rcpt b with
      | None => (Err InvalidRecipient, m, b)
      | Some g =>
          let b' := CBuf (cb_addr b) (cb_len b) (cb_id b) (cb_rcpt b) n in
          let m' := writem (writem m (cb_addr b) (header_bytes g n)) (cb_addr b + HEADER) msg in
          (verify m' b', m', b')
      end
  | e => (e, m, b)
  end.

(** config.rs:488-510 [get_message]. *)
Definition get_message (dbg : bool) (m : mem) (b : cbuf) : res cstatus (list N) :=
  let* _ := verify m b in
  if cb_mlen b =? 0 then Ok []
  else
    let* e := uadd dbg HEADER (cb_mlen b) in
    if cb_len b <? e then Err TooSmallForMessage
    else if e <? HEADER then Panic
    else Ok (readm m (cb_addr b + HEADER) (N.to_nat (e - HEADER))).

(** config.rs:516-533. *)
Definition get_header_guid (m : mem) (b : cbuf) : res cstatus (option (list N)) := let* _ := verify m b in Ok (cb_rcpt b).
Definition get_message_length (m : mem) (b : cbuf) : res cstatus N := let* _ := verify m b in Ok (cb_mlen b).

(** ** The communication service *)

(** communicator.rs:33-50. *)
Inductive mstatus := NoCommBuffer | CommBufferNotFound | CommBufferTooSmall | CommBufferInitError | InvalidDataBuffer
                   | SwMmiServiceNotAvailable | SwMmiFailed | InvalidResponse.

(** What a software MMI does: management mode may write anywhere; then the trigger returns success or an error, or
    panics. *)
Inductive mmi := MOk (m : mem) | MErr (m : mem) | MPanic (m : mem).

(** The service, and the result of a call: what is returned, the buffers and memory after it, and the memory management
    mode found together with the two values passed to the trigger, if it was entered. *)
Record outcome := Outcome { o_res : res mstatus (list N); o_bufs : list cbuf; o_mem : mem; o_seen : option (mem * N * N) }.

(** [iter_mut().find(..)]: the buffers before the first with this id, it, and those after it. *)
Fixpoint find_buf (l : list cbuf) (id : N) : option (list cbuf * cbuf * list cbuf) :=
  match l with
  | [] => None
  | b :: r => if cb_id b =? id then Some ([], b, r)
              else match find_buf r id with Some (p, x, q) => Some (b :: p, x, q) | None => None end
  end.

(** communicator.rs:148-214 [communicate]; [trigger] is the service, if there is one. *)
Definition communicate (dbg : bool) (bufs : list cbuf) (m : mem) (trigger : option (mem -> N -> N -> mmi))
  (id : N) (data guid : list N) : outcome :=
  match bufs with
  | [] => Outcome (Err NoCommBuffer) bufs m None
  | _ =>
    match data with
    | [] => Outcome (Err InvalidDataBuffer) bufs m None
    | _ =>
      match trigger with
      | None => Outcome (Err SwMmiServiceNotAvailable) bufs m None
      | Some tr =>
        match find_buf bufs id with
        | None => Outcome (Err CommBufferNotFound) bufs m None
        | Some (p, b, q) =>
          if cb_len b <? HEADER + N.of_nat (length data) then Outcome (Err CommBufferTooSmall) bufs m None
          else
            match set_message_info m b guid with
            | (Ok _, m1, b1) =>
              match set_message m1 b1 data with
              | (Ok _, m2, b2) =>
                match tr m2 0xFF 0 with
                | MPanic m3 => Outcome Panic (p ++ b2 :: q) m3 (Some (m2, 0xFF, 0))
                | MErr m3 => Outcome (Err SwMmiFailed) (p ++ b2 :: q) m3 (Some (m2, 0xFF, 0))
                | MOk m3 =>
                  match get_message dbg m3 b2 with
                  | Ok r => Outcome (Ok r) (p ++ b2 :: q) m3 (Some (m2, 0xFF, 0))
                  | Err _ => Outcome (Err InvalidResponse) (p ++ b2 :: q) m3 (Some (m2, 0xFF, 0))
                  | Panic => Outcome Panic (p ++ b2 :: q) m3 (Some (m2, 0xFF, 0))
                  end
                end
              | (Err _, m2, b2) => Outcome (Err CommBufferInitError) (p ++ b2 :: q) m2 None
              | (Panic, m2, b2) => Outcome Panic (p ++ b2 :: q) m2 None
              end
            | (Err _, m1, b1) => Outcome (Err CommBufferInitError) (p ++ b1 :: q) m1 None
            | (Panic, m1, b1) => Outcome Panic (p ++ b1 :: q) m1 None
            end
        end
      end
    end
  end.

(** ** The trigger

    config.rs:568-578 and sw_mmi_manager.rs:100-147 on x86-64: the port writes in order; [todo!] panics. *)
Inductive port := Smi (p : N) | Smc (p : N).

Definition trigger_sw_mmi (cmd_port data_port : port) (cmd data : N) : list (N * N) * res efi_error unit :=
  match cmd_port with
  | Smi c =>
      match data_port with
      | Smi d => ([(c, cmd); (d, data)], Ok tt)
      | Smc _ => ([(c, cmd)], Panic)
      end
  | Smc _ => ([], Panic)
  end.
