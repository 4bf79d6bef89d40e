(** Drivers that keep to the UEFI specification, and what is expected of reading through them. *)
From Verif Require Import Base.Prelude Base.Bytes File.Model.
Local Open Scope N_scope.

Definition len (l : list N) : N := N.of_nat (length l).

(** EFI_FILE_INFO: the size of the file at byte 8, its attributes at byte 72; at least a terminated name behind them. *)
Definition info_says (info : list N) (size attr : N) : Prop :=
  82 <= len info /\ size < 2 ^ 64 /\ attr < 2 ^ 64 /\ (exists a b c d, info = a ++ le_bytes 8 size ++ b ++ le_bytes 8 attr ++ c :: d /\ length a = 8%nat /\ length b = 56%nat).
(** A file with a content. *)
Definition file_ok (o : file) (info content : list N) : Prop :=
  (forall b n, f_info o b n = if b && (len info <=? n) then (0, len info, info) else (2 ^ 63 + 5, len info, []))
  /\ f_setpos o 0 = 0
  /\ (forall n, f_read o n = (0, N.min n (len content), firstn (N.to_nat n) content)).

(** A node that names a file, and the end of a path. *)
Definition name_node (name : list N) : N * N * list N := (4, 4, flat_map (fun c => [c mod 256; c / 256]) (name ++ [0])).
Definition end_node : N * N * list N := (0x7F, 0xFF, []).
Definition name_ok (name : list N) : Prop := Forall (fun c => 0 < c /\ c < 2 ^ 16) name.
(** The string a driver reads at an address: up to a zero; [None] if it reads past the end. *)
Fixpoint cstr (l : list N) : option (list N) :=
  match l with [] => None | c :: l => if c =? 0 then Some [] else match cstr l with Some s => Some (c :: s) | None => None end end.
(** Opening names one after the other. *)
Fixpoint resolve {F} (look : F -> list N -> res N F) (names : list (list N)) (f : F) : res N F :=
  match names with [] => Ok f | n :: ns => match look f n with Ok g => resolve look ns g | Err e => Err e | Panic => Panic end end.
(** A driver that looks the string up that it reads. *)
Definition driver_open {F} (look : F -> list N -> res N F) (f : F) (v : list N) : res N F := match cstr v with Some s => look f s | None => Panic end.

(** The order in which ways are tried. *)
Definition order (bp : bool) : list way := if bp then [Fw; Sfs; Lf] else [Fw; Sfs; Lf2; Lf].
