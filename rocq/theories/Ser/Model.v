(** The readable form of HOBs: intervals and numbers.  sdk/patina_pi/src/serializable.rs, serializable/{serializable_hob,hex_format}.rs. *)
From Verif Require Import Base.Prelude.
Local Open Scope N_scope.

(** ** Intervals *)

(** MemAllocDescriptorSerDe (serializable_hob.rs:66-76) and ResourceDescriptorSerDe (101-115); [i_attr] is the resource attribute, 0 for the first.  The
    name is its characters. *)
Record iv := Iv { i_name : list N; i_type : N; i_attr : N; i_base : N; i_len : N }.
(** serializable_hob.rs:83-85, 122-124. *)
Definition i_end (dbg : bool) (a : iv) : res unit N := uadd dbg (i_base a) (i_len a).
(** serializable_hob.rs:89-96, 128-136; [ea], [eb] are the ends.  The larger end is not below the smaller start unless an end wrapped. *)
Definition i_merge (dbg : bool) (a b : iv) (ea eb : N) : res unit iv :=
  let s := N.min (i_base a) (i_base b) in
  let* l := usub dbg (N.max ea eb) s in
  Ok (Iv (i_name a) (i_type a) (i_attr a) s l).
(** serializable.rs:81-97.  Both ends are computed whatever the starts are. *)
Definition try_merge (dbg : bool) (a b : iv) : res unit (option iv) :=
  let* ea := i_end dbg a in
  let* eb := i_end dbg b in
  if ((i_base a <? eb) && (i_base b <? ea)) || ((ea =? i_base b) || (eb =? i_base a))
  then let* m := i_merge dbg a b ea eb in Ok (Some m)
  else Ok None.

(** Orders: [true] if the first may come first. *)
Fixpoint name_cmp (a b : list N) : comparison :=
  match a, b with
  | [], [] => Eq
  | [], _ => Lt
  | _, [] => Gt
  | x :: a, y :: b => match x ?= y with Eq => name_cmp a b | c => c end
  end.
(** The derived order of MemAllocDescriptorSerDe (serializable_hob.rs:65): name, base, length, type. *)
Definition mem_le (a b : iv) : bool :=
  match name_cmp (i_name a) (i_name b) with
  | Lt => true
  | Gt => false
  | Eq => match i_base a ?= i_base b with
          | Lt => true
          | Gt => false
          | Eq => match i_len a ?= i_len b with Lt => true | Gt => false | Eq => i_type a <=? i_type b end
          end
  end.
(** serializable_hob.rs:139-152. *)
Definition res_le (a b : iv) : bool := match i_base a ?= i_base b with Lt => true | Gt => false | Eq => i_len a <=? i_len b end.

(** A stable sort. *)
Fixpoint insert (le : iv -> iv -> bool) (a : iv) (l : list iv) : list iv :=
  match l with [] => [a] | b :: l' => if le a b then a :: l else b :: insert le a l' end.
Definition sort_iv (le : iv -> iv -> bool) (l : list iv) : list iv := fold_right (insert le) [] l.
(** serializable.rs:108-118: [last] is the last of the result, [done] what is before it, in reverse. *)
Fixpoint merge_loop (dbg : bool) (done : list iv) (last : iv) (l : list iv) : res unit (list iv) :=
  match l with
  | [] => Ok (rev (last :: done))
  | c :: l =>
      let* m := try_merge dbg last c in
      match m with
      | Some m => merge_loop dbg done m l
      | None => merge_loop dbg (last :: done) c l
      end
  end.
(** serializable.rs:100-119. *)
Definition merge_intervals (dbg : bool) (le : iv -> iv -> bool) (l : list iv) : res unit (list iv) :=
  match sort_iv le l with [] => Ok [] | a :: l => merge_loop dbg [] a l end.

(** ** Numbers *)

Definition digit (d : N) : N := if d <? 10 then 48 + d else 87 + d.
(** The digits of [{:x}]; [fuel] at least their number. *)
Fixpoint digits (fuel : nat) (n : N) (acc : list N) : list N :=
  match fuel with O => acc | S fuel => if n <? 16 then digit n :: acc else digits fuel (n / 16) (digit (n mod 16) :: acc) end.
(** hex_format.rs:18-24: numbers have at most 64 bits. *)
Definition to_text (n : N) : list N := 48 :: 120 :: digits 16 n [].
(** core's char::to_digit(16). *)
Definition digit_of (c : N) : option N :=
  if (48 <=? c) && (c <=? 57) then Some (c - 48)
  else if (97 <=? c) && (c <=? 102) then Some (c - 87)
  else if (65 <=? c) && (c <=? 70) then Some (c - 55)
  else None.
Fixpoint parse (max acc : N) (l : list N) : option N :=
  match l with
  | [] => Some acc
  | c :: l => match digit_of c with None => None | Some d => if acc * 16 + d <=? max then parse max (acc * 16 + d) l else None end
  end.
(** core's from_str_radix(_, 16) of an unsigned type of [bits] bits: no digits is an error, a plus sign is skipped. *)
Definition from_str_radix (bits : N) (l : list N) : option N :=
  match l with
  | [] => None
  | 43 :: [] => None
  | 43 :: l => parse (2 ^ bits - 1) 0 l
  | _ => parse (2 ^ bits - 1) 0 l
  end.
(** hex_format.rs:64-72. *)
Definition of_text (bits : N) (l : list N) : option N := match l with 48 :: 120 :: l => from_str_radix bits l | _ => None end.
