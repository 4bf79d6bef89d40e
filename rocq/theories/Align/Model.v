(** Model of sdk/patina/src/base.rs: alignment helpers.
    The Rust functions are generic over [PrimInt]; the model is the instance at an unsigned
    integer type of [w] bits ([u8] .. [u64], [usize]); values are [N] below [2^w].
    Signed instances are not modelled. *)
From Verif Require Import Base.Prelude.
Local Open Scope N_scope.

(** base.rs:168-173 [is_power_of_two].  [x - 1] is only evaluated when [x > 0]. *)
Definition is_power_of_two (x : N) : bool :=
  (0 <? x) && (N.land x (x - 1) =? 0).

(** base.rs:211-219 [align_down]: [addr & !(align - 1)]; the bitwise complement is taken in [w] bits. *)
Definition align_down (w addr align : N) : res efi_error N :=
  if negb (is_power_of_two align) then Err InvalidParameter
  else Ok (N.land addr (N.lxor (2 ^ w - 1) (align - 1))).

(** base.rs:260-273 [align_up]: [checked_add] fails when the sum does not fit in [w] bits. *)
Definition align_up (w addr align : N) : res efi_error N :=
  if negb (is_power_of_two align) then Err InvalidParameter
  else
    let mask := align - 1 in
    if N.land addr mask =? 0 then Ok addr
    else
      let s := N.lor addr mask + 1 in
      if s <? 2 ^ w then Ok s else Err InvalidParameter.

(** base.rs:309-321 [align_range].  [base + length] is unchecked Rust addition: it panics in a debug
    build when it overflows, which the model reports as [Panic]. *)
Definition align_range (w base length align : N) : res efi_error (N * N) :=
  if negb (is_power_of_two align) then Err InvalidParameter
  else if 2 ^ w <=? base + length then Panic
  else
    match align_up w (base + length) align with
    | Ok aend =>
        match align_down w base align with
        | Ok abase => Ok (abase, aend - abase)
        | Err e => Err e
        | Panic => Panic
        end
    | Err e => Err e
    | Panic => Panic
    end.
