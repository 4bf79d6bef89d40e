(** Shared imports and vocabulary for every model. *)
From Coq Require Export NArith ZArith List Bool Lia.
From Coq Require Export ZifyBool ZifyNat ZifyN.
Export ListNotations.

(** Outcome of a Rust function that may return [Err] or panic.
    A panic is kept as an explicit value so that "never panics" is a theorem. *)
Inductive res (E A : Type) : Type :=
| Ok (a : A)
| Err (e : E)
| Panic.
Arguments Ok {E A} a.
Arguments Err {E A} e.
Arguments Panic {E A}.

Definition is_ok {E A} (r : res E A) : bool :=
  match r with Ok _ => true | _ => false end.

(** The subset of [EfiError] used by the models
    (sdk/patina/src/error.rs lines 1-140). *)
Inductive efi_error : Type :=
| LoadError | InvalidParameter | Unsupported | BadBufferSize | BufferTooSmall
| NotReady | DeviceError | WriteProtected | OutOfResources | VolumeCorrupted
| NotFound | AccessDenied | AlreadyStarted | Aborted | SecurityViolation
| NotStarted | CompromisedData | OtherError.

Definition efi_error_eq_dec (a b : efi_error) : {a = b} + {a <> b}.
Proof. decide equality. Defined.

(** 64-bit bound used for [u64]/[usize]. *)
Definition two64 : N := (2 ^ 64)%N.
Definition two32 : N := (2 ^ 32)%N.
Definition two16 : N := (2 ^ 16)%N.
Definition u64_max : N := (two64 - 1)%N.
Global Arguments two64 : simpl never.
Global Arguments two32 : simpl never.
Global Arguments two16 : simpl never.
Global Arguments u64_max : simpl never.

(** Sequencing of fallible computations (Rust's [?] operator). *)
Definition bind {E A B} (r : res E A) (f : A -> res E B) : res E B :=
  match r with Ok a => f a | Err e => Err e | Panic => Panic end.
Notation "'let*' x := r 'in' k" := (bind r (fun x => k))
  (at level 200, x pattern, r at level 100, k at level 200).

(** Machine arithmetic on [usize]/[u64].  Cargo.toml:74-87: the release profile wraps silently, the
    dev/test profiles panic on overflow and enable [debug_assert!].  [dbg] selects the build; every
    theorem that mentions it holds for both. *)
Definition uadd {E} (dbg : bool) (a b : N) : res E N :=
  if (a + b <? two64)%N then Ok (a + b)%N
  else if dbg then Panic else Ok ((a + b) mod two64)%N.

Definition usub {E} (dbg : bool) (a b : N) : res E N :=
  if (b <=? a)%N then Ok (a - b)%N
  else if dbg then Panic else Ok ((a + two64 - b) mod two64)%N.

(** [1 << s] and [usize::MAX << s]: a shift amount >= 64 panics in a debug build and is taken modulo 64
    in a release build. *)
Definition ushift_amount {E} (dbg : bool) (s : N) : res E N :=
  if (s <? 64)%N then Ok s else if dbg then Panic else Ok (s mod 64)%N.

(** [debug_assert!(false)] followed by returning [r]. *)
Definition debug_fail {E A} (dbg : bool) (r : res E A) : res E A :=
  if dbg then Panic else r.
