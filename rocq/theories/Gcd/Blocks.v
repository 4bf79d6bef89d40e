(** Block maps shared by the memory and I/O GCD.
    memory_block.rs and io_block.rs are line-for-line copies of each other except for the descriptor
    fields; the model is written once, over an arbitrary block state [St] (everything in the descriptor
    except base and length, plus the Allocated/Unallocated tag), a state comparison [same] and a
    transition function [tr].  Gcd/Model.v and Gcd/IoModel.v instantiate it.

    The red-black tree [Rbt<Block>] is modelled by the list of its blocks in key order together with its
    capacity; a tree index is modelled by the key (base address) of the block stored in that slot, which
    no operation below changes.  That the tree behaves as this sorted list is the subject of the Rbt
    development. *)
From Verif Require Import Base.Prelude.
Local Open Scope N_scope.

(** memory_block.rs:16-20, io_block.rs:16-20; core/patina_internal_collections/src/lib.rs [Error];
    spin_locked_gcd.rs [InternalError]. *)
Inductive ierr : Type :=
| InvalidStateTransition | BlockOutsideRange | OutOfSpace | AlreadyExists.

Record block (St : Type) := mkBlock { b_base : N; b_len : N; b_st : St }.
Arguments mkBlock {St}.
Arguments b_base {St}.
Arguments b_len {St}.
Arguments b_st {St}.

(** memory_block.rs:319-321 [end].  The addition cannot overflow for stored blocks. *)
Definition b_end {St} (b : block St) : N := b_base b + b_len b.

(** ** The sorted collection (spin_locked_gcd.rs uses of [Rbt]) *)

(** rbt.rs:217-222 [get_with_idx] with the key standing for the index. *)
Fixpoint lookup {St} (l : list (block St)) (k : N) : option (block St) :=
  match l with
  | [] => None
  | b :: r => if b_base b =? k then Some b else lookup r k
  end.

(** rbt.rs:244-249 [get_with_idx_mut]: overwrite the element in place. *)
Fixpoint update {St} (l : list (block St)) (k : N) (nb : block St) : list (block St) :=
  match l with
  | [] => []
  | b :: r => if b_base b =? k then nb :: r else b :: update r k nb
  end.

(** rbt.rs:137-160 [add_node]: insertion by key, [None] for a duplicate key. *)
Fixpoint insert {St} (l : list (block St)) (nb : block St) : option (list (block St)) :=
  match l with
  | [] => Some [nb]
  | b :: r =>
      if b_base nb <? b_base b then Some (nb :: b :: r)
      else if b_base nb =? b_base b then None
      else match insert r nb with Some r' => Some (b :: r') | None => None end
  end.

(** rbt.rs:95-111 [add]: storage is taken first, then the tree insertion. *)
Definition c_add {St} (cap : N) (l : list (block St)) (nb : block St) : res ierr (N * list (block St)) :=
  if N.of_nat (length l) =? cap then Err OutOfSpace
  else match insert l nb with Some l' => Ok (b_base nb, l') | None => Err AlreadyExists end.

(** rbt.rs:119-134 [add_many] for the two-element array used by the GCD. *)
Definition c_add2 {St} (cap : N) (l : list (block St)) (b1 b2 : block St) : res ierr (N * list (block St)) :=
  if cap <? N.of_nat (length l) + 2 then Err OutOfSpace
  else let* (_, l1) := c_add cap l b1 in c_add cap l1 b2.

(** rbt.rs:545-554 [delete_with_idx]. *)
Fixpoint c_delete {St} (l : list (block St)) (k : N) : list (block St) :=
  match l with
  | [] => []
  | b :: r => if b_base b =? k then r else b :: c_delete r k
  end.

(** rbt.rs:435-453 [next_idx]: the next block in key order. *)
Fixpoint next_key {St} (l : list (block St)) (k : N) : option N :=
  match l with
  | [] => None
  | b :: r => if k <? b_base b then Some (b_base b) else next_key r k
  end.

(** rbt.rs:471-489 [prev_idx]: the previous block in key order. *)
Fixpoint prev_key {St} (l : list (block St)) (k : N) : option N :=
  match l with
  | [] => None
  | b :: r => if b_base b <? k
              then match prev_key r k with Some p => Some p | None => Some (b_base b) end
              else None
  end.

(** rbt.rs:287-301 [get_closest_idx]: the greatest key not above the probe. *)
Fixpoint closest {St} (l : list (block St)) (k : N) : option N :=
  match l with
  | [] => None
  | b :: r => if b_base b <=? k
              then match closest r k with Some p => Some p | None => Some (b_base b) end
              else None
  end.

(** ** Single blocks *)
Section BlockOps.
Context {St : Type} (same : St -> St -> bool).

(** memory_block.rs:80-88 / io_block.rs:45-53 [merge]: the new [self] and whether it merged.  The
    second argument's new length 0 is never read by the callers modelled here. *)
Definition merge (self other : block St) : block St * bool :=
  if same (b_st self) (b_st other) && (b_end self =? b_base other)
  then (mkBlock (b_base self) (b_len self + b_len other) (b_st self), true)
  else (self, false).

(** memory_block.rs:71-77 [MemoryBlockSplit]. *)
Inductive split_result : Type :=
| SplitSame (self : block St)
| SplitBefore (self next : block St)
| SplitAfter (self next : block St)
| SplitMiddle (self next last : block St).

(** memory_block.rs:90-137 / io_block.rs:55-102 [split]; [base_address + len] wraps or panics. *)
Definition split (dbg : bool) (self : block St) (base len : N) : res ierr split_result :=
  let* e := uadd dbg base len in
  if negb ((b_base self <=? base) && (base <? e) && (e <=? b_end self)) then Err BlockOutsideRange
  else if (b_base self =? base) && (e =? b_end self) then Ok (SplitSame self)
  else if (b_base self =? base) && (e <? b_end self) then
    Ok (SplitBefore (mkBlock base len (b_st self))
                    (mkBlock e (b_len self - len) (b_st self)))
  else if (b_base self <? base) && (e =? b_end self) then
    Ok (SplitAfter (mkBlock (b_base self) (b_len self - len) (b_st self))
                   (mkBlock base len (b_st self)))
  else if (b_base self <? base) && (e <? b_end self) then
    Ok (SplitMiddle (mkBlock (b_base self) (base - b_base self) (b_st self))
                    (mkBlock base len (b_st self))
                    (mkBlock e (b_end self - e) (b_st self)))
  else Panic.

Definition set_st (b : block St) (s : St) : block St := mkBlock (b_base b) (b_len b) s.

(** memory_block.rs:139-173 / io_block.rs:104-138 [split_state_transition].  Returns the outcome and
    the block left in the tree slot when the outcome is an error (the Rust code merges the pieces back
    in place). *)
Definition split_state_transition (dbg : bool) (self : block St) (base len : N) (tr : St -> option St)
  : res ierr split_result * block St :=
  match split dbg self base len with
  | Err e => (Err e, self)
  | Panic => (Panic, self)
  | Ok (SplitSame mb) =>
      match tr (b_st mb) with
      | Some s => (Ok (SplitSame (set_st mb s)), set_st mb s)
      | None => (Err InvalidStateTransition, mb)
      end
  | Ok (SplitBefore mb next) =>
      match tr (b_st mb) with
      | Some s => (Ok (SplitBefore (set_st mb s) next), set_st mb s)
      | None => (Err InvalidStateTransition, fst (merge mb next))
      end
  | Ok (SplitAfter prev mb) =>
      match tr (b_st mb) with
      | Some s => (Ok (SplitAfter prev (set_st mb s)), prev)
      | None => (Err InvalidStateTransition, fst (merge prev mb))
      end
  | Ok (SplitMiddle prev mb next) =>
      match tr (b_st mb) with
      | Some s => (Ok (SplitMiddle prev (set_st mb s) next), prev)
      | None => (Err InvalidStateTransition, fst (merge prev (fst (merge mb next))))
      end
  end.

(** spin_locked_gcd.rs:1115-1141 / 1701-1724: merge the block at [k] with its neighbours. *)
Definition merge_neighbours (l : list (block St)) (k : N) : res ierr (N * list (block St)) :=
  let* l1 :=
    match next_key l k with
    | None => Ok l
    | Some nk =>
        match lookup l nk, lookup l k with
        | Some next, Some b =>
            let (b', merged) := merge b next in
            if merged then Ok (c_delete (update l k b') nk) else Ok l
        | _, _ => Panic
        end
    end in
  match prev_key l1 k with
  | None => Ok (k, l1)
  | Some pk =>
      match lookup l1 k, lookup l1 pk with
      | Some b, Some prev =>
          let (p', merged) := merge prev b in
          if merged then Ok (pk, c_delete (update l1 pk p') k) else Ok (k, l1)
      | _, _ => Panic
      end
  end.

(** spin_locked_gcd.rs:1058-1142 / 1646-1725 [split_state_transition_at_idx]: outcome and the tree
    afterwards. *)
Definition sst_at (dbg : bool) (cap : N) (l : list (block St)) (k base len : N) (tr : St -> option St)
  : res ierr N * list (block St) :=
  match lookup l k with
  | None => (Panic, l)
  | Some before =>
      match split_state_transition dbg before base len tr with
      | (Panic, _) => (Panic, l)
      | (Err e, b') => (Err e, update l k b')
      | (Ok sp, _) =>
          let added :=
            match sp with
            | SplitSame b => Ok (k, update l k b)
            | SplitAfter b next => c_add cap (update l k b) next
            | SplitBefore b next => let* (_, l') := c_add cap (update l k b) next in Ok (k, l')
            | SplitMiddle b next next2 => c_add2 cap (update l k b) next2 next
            end in
          match added with
          | Panic => (Panic, l)
          | Err e => (Err e, update (update l k (match sp with
                                                  | SplitSame b | SplitAfter b _ | SplitBefore b _
                                                  | SplitMiddle b _ _ => b end)) k before)
          | Ok (k', l') =>
              match merge_neighbours l' k' with
              | Ok (k'', l'') => (Ok k'', l'')
              | Err e => (Err e, l')
              | Panic => (Panic, l')
              end
          end
      end
  end.

End BlockOps.
Arguments SplitSame {St}.
Arguments SplitBefore {St}.
Arguments SplitAfter {St}.
Arguments SplitMiddle {St}.
