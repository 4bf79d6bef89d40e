(** * The raw-pointer device path utilities

    core/patina_internal_device_path/src/lib.rs and
    [core_locate_device_path] of patina_dxe_core/src/protocols.rs.

    A pointer into a device path is modelled by the bytes that follow it: the
    list of all bytes readable from that address on.  Reading past the end of
    that list is undefined behaviour in the source and an explicit [Fault]
    here.  A loop that never ends is an explicit [Hang]; the fuel given to
    every loop is one more than the number of readable bytes, so a loop whose
    every step moves forward cannot run out of it. *)

From Verif Require Import Base.Prelude.
Open Scope N_scope.

Inductive out (A : Type) : Type :=
| Ret (a : A)
| Fail (e : efi_error)
| Fault          (* undefined behaviour or a panic *)
| Hang.          (* the loop never ends *)
Arguments Ret {A} a.
Arguments Fail {A} e.
Arguments Fault {A}.
Arguments Hang {A}.

Definition obind {A B} (r : out A) (f : A -> out B) : out B :=
  match r with Ret a => f a | Fail e => Fail e | Fault => Fault | Hang => Hang end.

(** [efi::protocols::device_path::Protocol] (r-efi): type, sub_type, length
    as two little-endian bytes, decoded by [u16::from_le_bytes]. *)
Record hdr := Hdr { h_type : N; h_sub : N; h_len : N }.

(** [current_node_ptr.read_unaligned()], lib.rs:81. *)
Definition read_hdr (p : list N) : option hdr :=
  match p with
  | t :: s :: lo :: hi :: _ => Some (Hdr t s (lo + 256 * hi))
  | _ => None
  end.

(** [TYPE_END] and [End::SUBTYPE_ENTIRE] of r-efi. *)
Definition TYPE_END : N := 127.
Definition SUBTYPE_ENTIRE : N := 255.

(** [ptr.byte_offset(n)]: leaving the readable area is a [Fault] only when
    the result is dereferenced; [skipn] gives the empty list then. *)
Definition advance (n : N) (p : list N) : list N := skipn (N.to_nat n) p.

(** [from_raw_parts(p, n)], lib.rs:109: all [n] bytes must be readable. *)
Definition raw_parts (p : list N) (n : N) : out (list N) :=
  if (n <=? N.of_nat (length p)) then Ret (firstn (N.to_nat n) p) else Fault.

(** device_path_node_count, the loop at lib.rs:78-92. *)
Fixpoint node_count_loop (fuel : nat) (p : list N) (count size : N) : out (N * N) :=
  match fuel with
  | O => Hang
  | S fuel' =>
      match read_hdr p with
      | None => Fault
      | Some h =>
          let count := count + 1 in
          let size := size + h_len h in
          if h_type h =? TYPE_END then Ret (count, size)
          else node_count_loop fuel' (advance (h_len h) p) count size
      end
  end.

(** device_path_node_count, lib.rs:68-94.  [None] is the null pointer; the
    debug build panics on it (line 75). *)
Definition device_path_node_count (dbg : bool) (dp : option (list N)) : out (N * N) :=
  match dp with
  | None => if dbg then Fault else Fail InvalidParameter
  | Some p => node_count_loop (S (length p)) p 0 0
  end.

(** device_path_as_slice, lib.rs:105-110. *)
Definition device_path_as_slice (dbg : bool) (dp : option (list N)) : out (list N) :=
  obind (device_path_node_count dbg dp) (fun '(_, byte_count) =>
    match dp with Some p => raw_parts p byte_count | None => Fault end).

(** copy_device_path_to_boxed_slice, lib.rs:97-102. *)
Definition copy_device_path_to_boxed_slice (dbg : bool) (dp : option (list N)) : out (list N) :=
  device_path_as_slice dbg dp.

(** is_device_path_end, lib.rs:254-262, on a header already read. *)
Definition hdr_is_end (h : hdr) : bool :=
  (h_type h =? TYPE_END) && (h_sub h =? SUBTYPE_ENTIRE).

(** is_device_path_end, lib.rs:254-262: a null pointer counts as the end. *)
Definition is_device_path_end (dp : option (list N)) : out bool :=
  match dp with
  | None => Ret true
  | Some p => match read_hdr p with None => Fault | Some h => Ret (hdr_is_end h) end
  end.

Fixpoint bytes_eqb (a b : list N) : bool :=
  match a, b with
  | [], [] => true
  | x :: a', y :: b' => (x =? y) && bytes_eqb a' b'
  | _, _ => false
  end.

(** remaining_device_path, lib.rs:220-251.  Both pointers are dereferenced
    unconditionally (lines 228-229); the two byte slices are compared whole
    (line 242). *)
Fixpoint remaining_loop (fuel : nat) (a b : list N) (count : N) : out (option (list N * N)) :=
  match fuel with
  | O => Hang
  | S fuel' =>
      match read_hdr a, read_hdr b with
      | Some ah, Some bh =>
          if hdr_is_end ah then Ret (Some (b, count))
          else
            let count := count + 1 in
            obind (raw_parts a (h_len ah)) (fun a_slice =>
            obind (raw_parts b (h_len bh)) (fun b_slice =>
              if bytes_eqb a_slice b_slice
              then remaining_loop fuel' (advance (h_len ah) a) (advance (h_len bh) b) count
              else Ret None))
      | _, _ => Fault
      end
  end.

Definition remaining_device_path (a b : list N) : out (option (list N * N)) :=
  remaining_loop (S (length a)) a b 0.

(** concat_device_path_to_boxed_slice, lib.rs:265-276: [vec![0; a+b-4]], then
    the whole of [a] at 0, then [b] over its last four bytes.  A sum or an
    index below four and a slice of the wrong length panic. *)
Definition concat_device_path_to_boxed_slice (dbg : bool) (a b : option (list N)) : out (list N) :=
  obind (device_path_as_slice dbg a) (fun a_slice =>
  obind (device_path_as_slice dbg b) (fun b_slice =>
    let al := N.of_nat (length a_slice) in
    let bl := N.of_nat (length b_slice) in
    if al + bl <? 4 then Fault
    else
      let total := al + bl - 4 in
      if total <? al then Fault                    (* out_bytes[..a.len()] *)
      else if al <? 4 then Fault                   (* a.len() - 4 *)
      else if negb (total - (al - 4) =? bl) then Fault  (* copy_from_slice *)
      else Ret (firstn (N.to_nat (al - 4)) a_slice ++ b_slice))).

(** DevicePathNode, lib.rs:280-283: header and copied data. *)
Record dpnode := DpNode { d_hdr : hdr; d_data : list N }.

(** PartialEq for DevicePathNode, lib.rs:285-291. *)
Definition dpnode_eqb (x y : dpnode) : bool :=
  (h_type (d_hdr x) =? h_type (d_hdr y)) && (h_sub (d_hdr x) =? h_sub (d_hdr y))
  && bytes_eqb (d_data x) (d_data y).

(** DevicePathNode::new, lib.rs:300-307. *)
Definition dpnode_new (p : list N) : out (option dpnode) :=
  match read_hdr p with
  | None => Fault
  | Some h =>
      if h_len h <? 4 then Ret None
      else obind (raw_parts (advance 4 p) (h_len h - 4)) (fun d => Ret (Some (DpNode h d)))
  end.

(** DevicePathWalker::next, lib.rs:369-385: the state is the next pointer. *)
Definition walker_next (st : option (list N)) : out (option dpnode * option (list N)) :=
  match st with
  | None => Ret (None, None)
  | Some p =>
      obind (dpnode_new p) (fun o =>
        match o with
        | None => Ret (None, st)
        | Some n =>
            obind (is_device_path_end (Some p)) (fun e =>
              Ret (Some n, if e then None else Some (advance (h_len (d_hdr n)) p)))
        end)
  end.

(** Collecting the iterator ([for node in walker], [collect]). *)
Fixpoint walker_collect (fuel : nat) (st : option (list N)) : out (list dpnode) :=
  match fuel with
  | O => Hang
  | S fuel' =>
      obind (walker_next st) (fun '(o, st') =>
        match o with
        | None => Ret []
        | Some n => obind (walker_collect fuel' st') (fun l => Ret (n :: l))
        end)
  end.

Definition walk (p : list N) : out (list dpnode) := walker_collect (S (S (length p))) (Some p).

(** core_locate_device_path, patina_dxe_core/src/protocols.rs:745-763: the
    loop over the handles carrying the protocol.  Each handle comes with the
    device path installed on it, if any ([handle_protocol] failing skips it). *)
Fixpoint locate_loop (cands : list (N * option (list N))) (dp : list N)
    (best : option (N * (list N * N))) : out (option (N * (list N * N))) :=
  match cands with
  | [] => Ret best
  | (handle, temp) :: rest =>
      match temp with
      | None => locate_loop rest dp best
      | Some temp =>
          obind (remaining_device_path temp dp) (fun r =>
            match r with
            | None => locate_loop rest dp best
            | Some (remaining, matching) =>
                let better := match best with
                              | None => true
                              | Some (_, (_, best_match)) => best_match <? matching
                              end in
                locate_loop rest dp (if better then Some (handle, (remaining, matching)) else best)
            end)
      end
  end.

(** core_locate_device_path, protocols.rs:730-770.  [handles] is the answer of
    [PROTOCOL_DB.locate_handles(Some(protocol))] (line 743). *)
Definition core_locate_device_path (handles : res efi_error (list (N * option (list N))))
    (dp : option (list N)) : out (list N * N) :=
  match dp with
  | None => Fail InvalidParameter
  | Some dp =>
      match handles with
      | Err e => Fail e
      | Panic => Fault
      | Ok cands =>
          obind (locate_loop cands dp None) (fun b =>
            match b with
            | None => Fail NotFound
            | Some (handle, (remaining, _)) => Ret (remaining, handle)
            end)
      end
  end.
