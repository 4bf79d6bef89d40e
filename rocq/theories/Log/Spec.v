(** * What the in-memory log is, independently of the code

    A log is a sequence of entries stored back to back in 8-byte aligned
    slots: a 24-byte packed header, the message bytes, zero padding. *)

From Verif Require Import Base.Prelude Base.Bytes.
Open Scope N_scope.

Record entry := Entry { e_phase : N; e_level : N; e_time : N; e_data : list N }.

Definition e_len (e : entry) : N := N.of_nat (length (e_data e)).

(** Fields within their machine types and a message whose length fits the
    16-bit length field. *)
Definition entry_ok (e : entry) : Prop :=
  e_phase e < 2 ^ 16 /\ e_level e < 2 ^ 32 /\ e_time e < 2 ^ 64
  /\ bytes_ok (e_data e) /\ e_len e < 2 ^ 16.

(** Slot size: header and message, rounded up to a multiple of eight. *)
Definition slot_size (e : entry) : N := 8 * ((24 + e_len e + 7) / 8).

(** Slot image: signature "ALM2", version 2.0, level, time stamp, phase,
    message length, message offset 24, message, padding. *)
Definition slot_image (e : entry) : list N :=
  [65; 76; 77; 50] ++ [2; 0] ++ le_bytes 4 (e_level e) ++ le_bytes 8 (e_time e)
  ++ le_bytes 2 (e_phase e) ++ le_bytes 2 (e_len e) ++ le_bytes 2 24
  ++ e_data e ++ repeat 0 (N.to_nat (slot_size e - 24 - e_len e)).

Fixpoint total_size (es : list entry) : N :=
  match es with [] => 0 | e :: r => slot_size e + total_size r end.

Definition log_image (es : list entry) : list N := flat_map slot_image es.

(** Which of a sequence of messages find room, oldest first, [room] bytes
    being left. *)
Fixpoint accepted (room : N) (es : list entry) : list entry :=
  match es with
  | [] => []
  | e :: r => if slot_size e <=? room then e :: accepted (room - slot_size e) r
              else accepted room r
  end.

Fixpoint rejected_size (room : N) (es : list entry) : N :=
  match es with
  | [] => 0
  | e :: r => if slot_size e <=? room then rejected_size (room - slot_size e) r
              else slot_size e + rejected_size room r
  end.
