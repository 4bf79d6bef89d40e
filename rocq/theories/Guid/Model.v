(** Model of the GUID type of the SDK: byte image, display, parsing and comparison.
    Source: /repo/sdk/patina/src/base/guid.rs.

    Characters are Unicode scalar values ([N]); a [&str] is the list that [chars()] yields.
    A GUID is its 16-byte memory image, which is what [as_bytes] returns. *)
From Coq Require Import NArith List Bool.
Import ListNotations.
From Verif Require Import Base.Prelude.
Local Open Scope N_scope.

(** guid.rs:67 [EXPECTED_HEX_CHARS]. *)
Definition EXPECTED_HEX_CHARS : nat := 32%nat.

(** guid.rs:70 [DASH_POSITIONS]. *)
Definition DASH_POSITIONS : list nat := [8; 12; 16; 20]%nat.

(** guid.rs:73-89 [GuidError]; [expected] is always [EXPECTED_HEX_CHARS] and is kept. *)
Inductive guid_error :=
| InvalidLength (expected actual : nat)
| InvalidHexCharacter (position : nat) (character : N).

(** The memory image of an [efi::Guid] (guid.rs:151-165, [from_bytes]/[as_bytes]). *)
Definition guid := list N.

(** r_efi stores the integer fields little-endian; [efi::Guid::as_fields] (used at guid.rs:169-174)
    reads them with [from_le_bytes]. *)
Fixpoint le_val (bs : list N) : N :=
  match bs with [] => 0 | b :: r => b + 256 * le_val r end.

(** The converse, [to_le_bytes], used by [efi::Guid::from_fields] (guid.rs:238-249). *)
Fixpoint le_bytes (n : nat) (v : N) : list N :=
  match n with O => [] | S k => v mod 256 :: le_bytes k (v / 256) end.

Definition slice (g : list N) (a b : nat) : list N := firstn (b - a) (skipn a g).

(** guid.rs:169-174 [as_fields]: the six components. *)
Definition time_low (g : guid) : N := le_val (slice g 0 4).
Definition time_mid (g : guid) : N := le_val (slice g 4 6).
Definition time_hi (g : guid) : N := le_val (slice g 6 8).
Definition clk_hi (g : guid) : N := nth 8 g 0.
Definition clk_low (g : guid) : N := nth 9 g 0.
Definition node (g : guid) : list N := slice g 10 16.

(** guid.rs:238-249 [from_fields]. *)
Definition from_fields (tl tm th ch cl : N) (nd : list N) : guid :=
  le_bytes 4 tl ++ le_bytes 2 tm ++ le_bytes 2 th ++ [ch; cl] ++ nd.

(** guid.rs:186-192 [to_upper_hex]. *)
Definition to_upper_hex (c : N) : option N :=
  if ((48 <=? c) && (c <=? 57)) || ((65 <=? c) && (c <=? 70)) then Some c
  else if (97 <=? c) && (c <=? 102) then Some (c - 97 + 65)
  else None.

(** [char::is_ascii_whitespace]: space, tab, line feed, form feed, carriage return. *)
Definition is_ascii_whitespace (c : N) : bool :=
  (c =? 32) || (c =? 9) || (c =? 10) || (c =? 12) || (c =? 13).

(** guid.rs:208-219 the nibble-to-character match inside [add_hex]. *)
Definition nibble_char (v : N) : N := if v <=? 9 then 48 + v else 65 + v - 10.

(** guid.rs:208-219 [add_hex]: [digits] nibbles, most significant first. *)
Fixpoint add_hex (v : N) (digits : nat) : list N :=
  match digits with
  | O => []
  | S i => nibble_char (N.land (N.shiftr v (N.of_nat i * 4)) 15) :: add_hex v i
  end.

(** guid.rs:196-230 [to_canonical_string]. *)
Definition to_canonical_string (g : guid) : list N :=
  add_hex (time_low g) 8 ++ add_hex (time_mid g) 4 ++ add_hex (time_hi g) 4 ++
  add_hex (clk_hi g) 2 ++ add_hex (clk_low g) 2 ++ flat_map (fun b => add_hex b 2) (node g).

(** guid.rs:326-339 [Display::fmt]: a dash goes before each position in [DASH_POSITIONS]. *)
Fixpoint fmt_from (i : nat) (cs : list N) : list N :=
  match cs with
  | [] => []
  | c :: r => (if existsb (Nat.eqb i) DASH_POSITIONS then [45] else []) ++ c :: fmt_from (S i) r
  end.
Definition display (g : guid) : list N := fmt_from 0 (to_canonical_string g).

(** guid.rs:317-324 [hex_char_to_value]. *)
Definition hex_char_to_value (c : N) : N :=
  if (48 <=? c) && (c <=? 57) then c - 48
  else if (65 <=? c) && (c <=? 70) then c - 65 + 10
  else if (97 <=? c) && (c <=? 102) then c - 97 + 10
  else 0.

(** guid.rs:304-313 [parse_hex] at an integer type of [w] bits: [<<] drops the high bits. *)
Definition parse_hex (w : N) (cs : list N) : N :=
  fold_left (fun r c => N.lor (N.shiftl r 4 mod 2 ^ w) (hex_char_to_value c)) cs 0.

(** guid.rs:257-276 the scan: [acc] is [hex_chars[0..hex_count]], [pos] the 1-based position of
    the next character. *)
Fixpoint scan (pos : nat) (acc : list N) (s : list N) : res guid_error (list N) :=
  match s with
  | [] => Ok acc
  | c :: r =>
      match to_upper_hex c with
      | Some u =>
          if Nat.ltb (length acc) EXPECTED_HEX_CHARS then scan (S pos) (acc ++ [u]) r
          else Err (InvalidLength EXPECTED_HEX_CHARS (length acc + 1))
      | None =>
          if negb (is_ascii_whitespace c) && negb (c =? 45) then Err (InvalidHexCharacter pos c)
          else scan (S pos) acc r
      end
  end.

(** guid.rs:256-301 [try_from_string]. *)
Definition try_from_string (s : list N) : res guid_error guid :=
  match scan 1 [] s with
  | Ok h =>
      if negb (Nat.eqb (length h) EXPECTED_HEX_CHARS) then
        Err (InvalidLength EXPECTED_HEX_CHARS (length h))
      else
        Ok (from_fields
              (parse_hex 32 (slice h 0 8)) (parse_hex 16 (slice h 8 12)) (parse_hex 16 (slice h 12 16))
              (parse_hex 8 (slice h 16 18)) (parse_hex 8 (slice h 18 20))
              [parse_hex 8 (slice h 20 22); parse_hex 8 (slice h 22 24); parse_hex 8 (slice h 24 26);
               parse_hex 8 (slice h 26 28); parse_hex 8 (slice h 28 30); parse_hex 8 (slice h 30 32)])
  | Err e => Err e
  | Panic => Panic
  end.

(** guid.rs:348-352 [PartialEq::eq]: byte arrays compared element by element. *)
Fixpoint guid_eq (a b : guid) : bool :=
  match a, b with
  | [], [] => true
  | x :: a', y :: b' => (x =? y) && guid_eq a' b'
  | _, _ => false
  end.

(** guid.rs:362-381 [Ord::cmp]: lexicographic order of the byte arrays. *)
Fixpoint guid_cmp (a b : guid) : comparison :=
  match a, b with
  | [], [] => Eq
  | [], _ :: _ => Lt
  | _ :: _, [] => Gt
  | x :: a', y :: b' => match x ?= y with Eq => guid_cmp a' b' | c => c end
  end.
