(** * What a HOB list is

    The PI specification's hand-off block list, independent of the code: a
    sequence of blocks, each an 8-byte header (type, length, reserved, all
    little-endian) followed by a body, closed by a header-only end block. *)

From Verif Require Import Base.Prelude Base.Bytes.
Open Scope N_scope.

(** A hand-off block: its type, the reserved header field, and its body. *)
Record block := Block { b_type : N; b_reserved : N; b_body : list N }.

Definition b_length (b : block) : N := 8 + N.of_nat (length (b_body b)).

(** The bytes of a block as they lie in memory. *)
Definition block_bytes (b : block) : list N :=
  le_bytes 2 (b_type b) ++ le_bytes 2 (b_length b) ++ le_bytes 4 (b_reserved b) ++ b_body b.

(** The end-of-list block (type 0xFFFF, only a header). *)
Definition end_bytes (reserved : N) : list N :=
  le_bytes 2 65535 ++ le_bytes 2 8 ++ le_bytes 4 reserved.

(** The bytes of a whole list. *)
Definition list_bytes (bs : list block) (reserved : N) : list N :=
  concat (map block_bytes bs) ++ end_bytes reserved.

(** The lengths the PI specification (version 1.8, volume 3, chapter 5)
    gives each block type; types not listed may have any length. *)
Definition pi_length (t n : N) : Prop :=
  match t with
  | 1 => n = 56                (* PHIT *)
  | 2 => n = 48 \/ n = 72      (* memory allocation; with a module *)
  | 3 => n = 48                (* resource descriptor *)
  | 4 => 24 <= n               (* GUID extension *)
  | 5 => n = 24                (* firmware volume *)
  | 6 => n = 16                (* CPU *)
  | 9 => n = 56                (* firmware volume 2 *)
  | 11 => n = 24               (* UEFI capsule *)
  | 12 => n = 64               (* firmware volume 3 *)
  | 13 => n = 56               (* resource descriptor 2 *)
  | _ => True
  end.

Definition block_ok (b : block) : Prop :=
  b_type b < 65535 /\ b_length b < 65536 /\ b_reserved b < 2 ^ 32 /\ bytes_ok (b_body b) /\
  pi_length (b_type b) (b_length b).

(** The attribute rule of resource descriptors: memory may only be marked
    protected (or persistent) in a way it is declared to support. *)
Record attr_rule := Rule { r_is : N; r_can : N }.
Definition attr_rules : list attr_rule :=
  [ Rule 7 20      (* READ_PROTECTED        needs READ_PROTECTABLE *)
  ; Rule 8 21      (* WRITE_PROTECTED       needs WRITE_PROTECTABLE *)
  ; Rule 9 22      (* EXECUTION_PROTECTED   needs EXECUTION_PROTECTABLE *)
  ; Rule 18 19     (* READ_ONLY_PROTECTED   needs READ_ONLY_PROTECTABLE *)
  ; Rule 23 24 ].  (* PERSISTENT            needs PERSISTABLE *)

Definition obeys (attr : N) (r : attr_rule) : Prop :=
  N.testbit attr (r_is r) = true -> N.testbit attr (r_can r) = true.
