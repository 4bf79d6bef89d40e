(** Model of core/patina_internal_depex/src/lib.rs (release build: [debug_assert!] is a no-op).
    Bytes are [N]; a byte slice is [list N]. Logging is not modelled. *)
From Verif Require Import Base.Prelude.
Local Open Scope N_scope.

Definition bytes := list N.

(** lib.rs:22 [GUID_SIZE]. *)
Definition guid_size : nat := 16.

(** [Uuid::from_slice_le] (external crate [uuid], documented behaviour): the first three fields are
    byte-swapped into big-endian order, the remaining eight bytes are copied. [None] unless 16 bytes. *)
Definition uuid_from_slice_le (s : bytes) : option bytes :=
  match s with
  | [b0;b1;b2;b3;b4;b5;b6;b7;b8;b9;b10;b11;b12;b13;b14;b15] =>
      Some [b3;b2;b1;b0;b5;b4;b7;b6;b8;b9;b10;b11;b12;b13;b14;b15]
  | _ => None
  end.

(** lib.rs:69-73 [guid_from_uuid]: [as_fields] reads the big-endian fields; [efi::Guid::from_fields]
    stores them little-endian.  The resulting [efi::Guid] is represented by its 16-byte memory image. *)
Definition guid_from_uuid (u : bytes) : option bytes :=
  match u with
  | [b0;b1;b2;b3;b4;b5;b6;b7;b8;b9;b10;b11;b12;b13;b14;b15] =>
      Some [b3;b2;b1;b0;b5;b4;b7;b6;b8;b9;b10;b11;b12;b13;b14;b15]
  | _ => None
  end.

(** [slice.get(1..GUID_SIZE + 1)]: [None] when out of range. *)
Definition slice_get_1_17 (bs : bytes) : option bytes :=
  if (17 <=? length bs)%nat then Some (firstn 16 (skipn 1 bs)) else None.

(** lib.rs:76-78 [uuid_from_slice]. *)
Definition uuid_from_slice (s : option bytes) : option bytes :=
  match s with Some b => uuid_from_slice_le b | None => None end.

(** lib.rs:29-66 [Opcode]. *)
Inductive opcode : Type :=
| Before (u : bytes) | After (u : bytes) | Push (u : bytes) (present : bool)
| And | Or | Not | OTrue | OFalse | End | Sor | Unknown
| Malformed (op : N) (len : nat).

(** lib.rs:80-106 [Opcode::from].  [bytes[0]] on an empty slice would panic; the only caller
    (lib.rs:319-327) passes a non-empty slice, the model takes head and tail separately. *)
Definition opcode_from (b : N) (rest : bytes) : opcode :=
  let all := b :: rest in
  match b with
  | 0 => match uuid_from_slice (slice_get_1_17 all) with Some u => Before u | None => Malformed 0 (length all - 1) end
  | 1 => match uuid_from_slice (slice_get_1_17 all) with Some u => After u | None => Malformed 1 (length all - 1) end
  | 2 => match uuid_from_slice (slice_get_1_17 all) with Some u => Push u false | None => Malformed 2 (length all - 1) end
  | 3 => And | 4 => Or | 5 => Not | 6 => OTrue | 7 => OFalse | 8 => End | 9 => Sor
  | _ => Unknown
  end.

(** lib.rs:108-115 [byte_size]. *)
Definition byte_size (o : opcode) : nat :=
  match o with Before _ | After _ | Push _ _ => 1 + guid_size | _ => 1 end.

(** lib.rs:304-328 [DepexParser::next], collected (lib.rs:132-137). [index] advances by [byte_size];
    each step consumes at least one byte, so [length bs] steps suffice ([parse_go] fuel). *)
Fixpoint parse_go (fuel : nat) (bs : bytes) : list opcode :=
  match fuel with
  | O => []
  | S fuel' =>
      match bs with
      | [] => []
      | b :: rest => let o := opcode_from b rest in o :: parse_go fuel' (skipn (byte_size o) bs)
      end
  end.
Definition depex_from (bs : bytes) : list opcode := parse_go (length bs) bs.

Fixpoint bytes_eqb (a b : bytes) : bool :=
  match a, b with
  | [], [] => true
  | x :: a', y :: b' => (x =? y) && bytes_eqb a' b'
  | _, _ => false
  end.

(** [protocols.contains(&guid)] *)
Definition contains (protocols : list bytes) (g : bytes) : bool := existsb (bytes_eqb g) protocols.

Definition opcode_is_end (o : opcode) : bool := match o with End => true | _ => false end.

(** [stack.pop().unwrap_or(false)]; the top of the stack is the head of the list. *)
Definition pop (stack : list bool) : bool * list bool :=
  match stack with [] => (false, []) | b :: s => (b, s) end.

(** lib.rs:153-280 [Depex::eval], release build.  Returns the answer and the mutated expression
    (the [present] flags latch).  [todo] is the part of the expression still to be visited. *)
Fixpoint eval_go (protocols : list bytes) (todo : list opcode) (stack : list bool)
  : bool * list opcode :=
  match todo with
  | [] => (false, [])
  | o :: rest =>
      let cont o' st := let '(r, rest') := eval_go protocols rest st in (r, o' :: rest') in
      match o with
      | Before _ | After _ => (false, todo)
      | Sor => (false, todo)
      | Push u present =>
          if present then cont o (true :: stack)
          else
            match guid_from_uuid u with
            | Some g => if contains protocols g then cont (Push u true) (true :: stack)
                        else cont o (false :: stack)
            | None => cont o (false :: stack)
            end
      | And => let '(a, s1) := pop stack in let '(b, s2) := pop s1 in cont o ((a && b) :: s2)
      | Or => let '(a, s1) := pop stack in let '(b, s2) := pop s1 in cont o ((a || b) :: s2)
      | Not => let '(a, s1) := pop stack in cont o (negb a :: s1)
      | OTrue => cont o (true :: stack)
      | OFalse => cont o (false :: stack)
      | End => let '(a, _) := pop stack in (a, todo)
      | Unknown => (false, todo)
      | Malformed _ _ => (false, todo)
      end
  end.
Definition eval (protocols : list bytes) (e : list opcode) : bool * list opcode := eval_go protocols e [].

(** The [debug_assert!]s of [eval]: a debug build panics instead of returning [false] on these paths.
    [index] is the position of the head of [todo]; [whole] the entire expression. *)
Fixpoint eval_debug_go (protocols : list bytes) (whole todo : list opcode) (index : nat) (stack : list bool)
  : res unit bool :=
  match todo with
  | [] => Ok false
  | o :: rest =>
      let cont st := eval_debug_go protocols whole rest (S index) st in
      match o with
      | Before _ | After _ =>
          if negb (Nat.eqb index 0) then Panic
          else if (2 <? length whole)%nat then Panic
          else match nth_error whole 1 with
               | Some o2 => if opcode_is_end o2 then Ok false else Panic
               | None => Ok false
               end
      | Sor => if negb (Nat.eqb index 0) then Panic else Ok false
      | Push u present =>
          if present then cont (true :: stack)
          else match guid_from_uuid u with
               | Some g => cont (contains protocols g :: stack)
               | None => cont (false :: stack)
               end
      | And => let '(a, s1) := pop stack in let '(b, s2) := pop s1 in cont ((a && b) :: s2)
      | Or => let '(a, s1) := pop stack in let '(b, s2) := pop s1 in cont ((a || b) :: s2)
      | Not => let '(a, s1) := pop stack in cont (negb a :: s1)
      | OTrue => cont (true :: stack)
      | OFalse => cont (false :: stack)
      | End => Ok (fst (pop stack))
      | Unknown => Panic
      | Malformed _ _ => Panic
      end
  end.
Definition eval_debug protocols e := eval_debug_go protocols e e 0 [].

(** lib.rs:283-289 [is_associated]. *)
Inductive assoc := ABefore (g : bytes) | AAfter (g : bytes).
Definition is_associated (e : list opcode) : option assoc :=
  match e with
  | Before u :: _ => match guid_from_uuid u with Some g => Some (ABefore g) | None => None end
  | After u :: _ => match guid_from_uuid u with Some g => Some (AAfter g) | None => None end
  | _ => None
  end.

(** lib.rs:292-294 [is_sor]. *)
Definition is_sor (e : list opcode) : bool := match e with Sor :: _ => true | _ => false end.

(** lib.rs:297-301 [schedule]. *)
Definition schedule (e : list opcode) : list opcode := if is_sor e then tl e else e.
