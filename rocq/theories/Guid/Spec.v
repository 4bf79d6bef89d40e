(** What users rely on about GUID text and ordering, written without the model. *)
From Coq Require Import NArith List.
Import ListNotations.
Local Open Scope N_scope.

(** Sixteen bytes. *)
Definition is_guid (g : list N) : Prop := length g = 16%nat /\ Forall (fun b => b < 256) g.

(** The sixteen digit characters "0123456789ABCDEF". *)
Definition DIGITS : list N := [48;49;50;51;52;53;54;55;56;57;65;66;67;68;69;70].
Definition hex2 (b : N) : list N := [nth (N.to_nat (b / 16)) DIGITS 0; nth (N.to_nat (b mod 16)) DIGITS 0].

(** The registry format 33221100-5544-7766-8899-AABBCCDDEEFF over the memory image: the first
    three groups are little-endian integers, the rest is in byte order. 45 is the dash. *)
Definition guid_text (g : list N) : list N :=
  match g with
  | [b0;b1;b2;b3;b4;b5;b6;b7;b8;b9;b10;b11;b12;b13;b14;b15] =>
      hex2 b3 ++ hex2 b2 ++ hex2 b1 ++ hex2 b0 ++ [45] ++
      hex2 b5 ++ hex2 b4 ++ [45] ++ hex2 b7 ++ hex2 b6 ++ [45] ++
      hex2 b8 ++ hex2 b9 ++ [45] ++
      hex2 b10 ++ hex2 b11 ++ hex2 b12 ++ hex2 b13 ++ hex2 b14 ++ hex2 b15
  | _ => []
  end.

(** A hexadecimal digit character, in either case. *)
Definition hexchar (c : N) : Prop := In c DIGITS \/ In c [97;98;99;100;101;102].

(** What may stand between digits: dash, space, tab, LF, FF, CR. *)
Definition filler (c : N) : Prop := In c [45;32;9;10;12;13].

(** [digits_of s ds]: [ds] is [s] with fillers dropped and digits upper-cased; undefined when [s]
    has any other character. *)
Inductive digits_of : list N -> list N -> Prop :=
| do_nil : digits_of [] []
| do_fill c s ds : filler c -> digits_of s ds -> digits_of (c :: s) ds
| do_up c s ds : In c DIGITS -> digits_of s ds -> digits_of (c :: s) (c :: ds)
| do_low c s ds : In c [97;98;99;100;101;102] -> digits_of s ds -> digits_of (c :: s) (c - 32 :: ds).

(** The number a byte string spells, most significant byte first. *)
Fixpoint be_value (bs : list N) : N :=
  match bs with [] => 0 | b :: r => b * 256 ^ N.of_nat (length r) + be_value r end.
