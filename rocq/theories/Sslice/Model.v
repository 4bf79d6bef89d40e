(** Model of the sorted slice (core/patina_internal_collections/src/sorted_slice.rs). *)
From Verif Require Import Base.Prelude.
Local Open Scope nat_scope.

(** core/patina_internal_collections/src/lib.rs:76-86 [Error]. *)
Inductive ss_error := OutOfSpace | SsNotFound | AlreadyExists | NotSorted.

Section Ss.
Context {T K : Type}.
(** lib.rs:89-95 [SliceKey::key] and the [Ord] instance of the key type. *)
Variable key : T -> K.
Variable cmp : K -> K -> comparison.

(** sorted_slice.rs:14-19 [SortedSlice]: the whole backing slice and the number of live items. *)
Record sslice := MkS { ss_slice : list T; ss_count : nat }.

(** sorted_slice.rs:26-33 [new].  The backing bytes are read as elements; their initial values are arbitrary. *)
Definition ss_new (backing : list T) : sslice := MkS backing 0.

(** sorted_slice.rs:142-144 [capacity]; :150-152 [deref]. *)
Definition ss_capacity (s : sslice) : nat := length (ss_slice s).
Definition ss_items (s : sslice) : list T := firstn (ss_count s) (ss_slice s).

(** [slice::binary_search_by] of the Rust core library, which sorted_slice.rs:115 calls through
    [binary_search_by_key]: the search loop (fuelled by the length, which it always halves) and the final probe. *)
Fixpoint bs_loop (fuel : nat) (l : list T) (k : K) (base size : nat) : option nat :=
  match fuel with
  | O => None
  | S f =>
    if size <=? 1 then Some base
    else
      let half := size / 2 in
      let mid := base + half in
      match nth_error l mid with
      | None => None
      | Some e => bs_loop f l k (match cmp (key e) k with Gt => base | _ => mid end) (size - half)
      end
  end.

(** Result of a search: found at an index, absent with its insertion index; [None] is a panic. *)
Definition bsearch (l : list T) (k : K) : option (nat + nat) :=
  match l with
  | [] => Some (inr 0)
  | _ =>
    match bs_loop (length l) l k 0 (length l) with
    | None => None
    | Some base =>
      match nth_error l base with
      | None => None
      | Some e => match cmp (key e) k with Eq => Some (inl base) | Lt => Some (inr (base + 1)) | Gt => Some (inr base) end
      end
    end
  end.

(** sorted_slice.rs:113-116 [search] (and :137-139 [search_idx_with_key]). *)
Definition ss_search (s : sslice) (k : K) : option (nat + nat) := bsearch (ss_items s) k.

(** [slice::copy_within(a..b, dst)] with its bounds checks; [None] is a panic. *)
Definition copy_within (l : list T) (a b dst : nat) : option (list T) :=
  if (b <? a) || (length l <? b) || (length l - (b - a) <? dst) then None
  else Some (firstn dst l ++ firstn (b - a) (skipn a l) ++ skipn (dst + (b - a)) l).

(** [slice[a..a+n].copy_from_slice(src)] with [n = src.len()]. *)
Definition write_at (l : list T) (a : nat) (src : list T) : option (list T) :=
  if length l <? a + length src then None
  else Some (firstn a l ++ src ++ skipn (a + length src) l).

(** sorted_slice.rs:36-48 [add]. *)
Definition ss_add (s : sslice) (e : T) : res ss_error nat * sslice :=
  if ss_capacity s =? ss_count s then (Err OutOfSpace, s)
  else match ss_search s (key e) with
  | None => (Panic, s)
  | Some (inl _) => (Err AlreadyExists, s)
  | Some (inr idx) =>
    match copy_within (ss_slice s) idx (ss_count s) (idx + 1) with
    | None => (Panic, s)
    | Some l1 => match write_at l1 idx [e] with
      | None => (Panic, s)
      | Some l2 => (Ok idx, MkS l2 (ss_count s + 1))
      end
    end
  end.

(** [is_sorted_by_key] (sorted_slice.rs:60): no descending neighbours. *)
Fixpoint is_sorted_by_key (l : list T) : bool :=
  match l with
  | a :: (b :: _) as t => match cmp (key a) (key b) with Gt => false | _ => is_sorted_by_key t end
  | _ => true
  end.

(** sorted_slice.rs:64-69: some neighbours have equal keys. *)
Fixpoint has_equal_neighbours (l : list T) : bool :=
  match l with
  | a :: (b :: _) as t => match cmp (key a) (key b) with Eq => true | _ => has_equal_neighbours t end
  | _ => false
  end.

(** sorted_slice.rs:51-88 [add_contiguous_slice]. *)
Definition ss_add_slice (s : sslice) (es : list T) : res ss_error nat * sslice :=
  match es with
  | [] => (Ok 0, s)
  | e0 :: _ =>
    if ss_capacity s <? ss_count s + length es then (Err OutOfSpace, s)
    else if negb (is_sorted_by_key es) then (Err NotSorted, s)
    else if has_equal_neighbours es then (Err AlreadyExists, s)
    else match ss_search s (key e0) with
    | None => (Panic, s)
    | Some (inl _) => (Err AlreadyExists, s)
    | Some (inr idx) =>
      let insert :=
        match copy_within (ss_slice s) idx (ss_count s) (idx + length es) with
        | None => (Panic, s)
        | Some l1 => match write_at l1 idx es with
          | None => (Panic, s)
          | Some l2 => (Ok idx, MkS l2 (ss_count s + length es))
          end
        end in
      match nth_error (ss_items s) idx with
      | None => insert
      | Some next =>
        match cmp (key (last es e0)) (key next) with
        | Eq => (Err AlreadyExists, s)
        | Gt => (Err NotSorted, s)
        | Lt => insert
        end
      end
    end
  end.

(** sorted_slice.rs:100-108 [remove_at_idx]. *)
Definition ss_remove_at (s : sslice) (idx : nat) : res ss_error (option T) * sslice :=
  if ss_count s <=? idx then (Ok None, s)
  else match nth_error (ss_slice s) idx with
  | None => (Panic, s)
  | Some item =>
    match copy_within (ss_slice s) (idx + 1) (ss_count s) idx with
    | None => (Panic, s)
    | Some l => (Ok (Some item), MkS l (ss_count s - 1))
    end
  end.

(** sorted_slice.rs:91-97 [remove]. *)
Definition ss_remove (s : sslice) (k : K) : res ss_error nat * sslice :=
  match ss_search s k with
  | None => (Panic, s)
  | Some (inr _) => (Err SsNotFound, s)
  | Some (inl idx) =>
    match ss_remove_at s idx with
    | (Ok _, s') => (Ok idx, s')
    | (Err e, s') => (Err e, s')
    | (Panic, s') => (Panic, s')
    end
  end.

(** sorted_slice.rs:121-134 [search_with_key], [search_with_key_mut]: both arms index the live slice. *)
Definition ss_search_with_key (s : sslice) (k : K) : res T T :=
  match ss_search s k with
  | None => Panic
  | Some (inl idx) => match nth_error (ss_items s) idx with Some e => Ok e | None => Panic end
  | Some (inr idx) => match nth_error (ss_items s) idx with Some e => Err e | None => Panic end
  end.

(** The mutating interface as data, for histories. *)
Inductive ss_op := SAdd (e : T) | SAddSlice (es : list T) | SRemove (e : T) | SRemoveAt (idx : nat).

(** What a call reports: success with an index, success with an optional element, or an error. *)
Inductive ss_out := OIdx (i : nat) | OElt (e : option T) | OErr (e : ss_error) | OPanic.

Definition out_idx (r : res ss_error nat) : ss_out :=
  match r with Ok i => OIdx i | Err e => OErr e | Panic => OPanic end.
Definition out_elt (r : res ss_error (option T)) : ss_out :=
  match r with Ok i => OElt i | Err e => OErr e | Panic => OPanic end.

Definition ss_step (s : sslice) (o : ss_op) : ss_out * sslice :=
  match o with
  | SAdd e => let (r, s') := ss_add s e in (out_idx r, s')
  | SAddSlice es => let (r, s') := ss_add_slice s es in (out_idx r, s')
  | SRemove e => let (r, s') := ss_remove s (key e) in (out_idx r, s')
  | SRemoveAt i => let (r, s') := ss_remove_at s i in (out_elt r, s')
  end.

Fixpoint ss_run (s : sslice) (ops : list ss_op) : sslice :=
  match ops with [] => s | o :: t => ss_run (snd (ss_step s o)) t end.
End Ss.
Arguments sslice : clear implicits.
Arguments ss_op : clear implicits.
Arguments ss_out : clear implicits.
