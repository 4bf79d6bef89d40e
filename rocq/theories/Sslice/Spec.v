(** Specification of a sorted set: what each call reports and which elements it leaves.  Nothing here
    mentions the implementation. *)
From Coq Require Import Sorting.Sorted Sorting.Permutation.
From Verif Require Import Base.Prelude Sslice.Model.

Section Spec.
Context {T K : Type}.
Variable key : T -> K.
Variable cmp : K -> K -> comparison.

(** The [Ord] laws the key type has to satisfy. *)
Record ord_laws : Prop := {
  cmp_refl : forall x, cmp x x = Eq;
  cmp_anti : forall x y, cmp y x = CompOpp (cmp x y);
  cmp_trans : forall x y z, cmp x y = Lt -> cmp y z = Lt -> cmp x z = Lt;
  cmp_eq_l : forall x y z, cmp x y = Eq -> cmp x z = cmp y z
}.

Definition lt_elt (a b : T) : Prop := cmp (key a) (key b) = Lt.
Definition strictly_sorted (l : list T) : Prop := StronglySorted lt_elt l.
Definition same_key (a b : T) : Prop := cmp (key a) (key b) = Eq.
Definition has_key (l : list T) (a : T) : Prop := exists x, In x l /\ same_key x a.
(** Number of elements of [l] that sort before [a]: the index [a] has, or would have. *)
Definition rank (l : list T) (a : T) : nat :=
  length (filter (fun x => match cmp (key x) (key a) with Lt => true | _ => false end) l).

(** One call on a set of capacity [cap] holding [l], reporting [out] and leaving [l']. *)
Inductive ss_spec (cap : nat) (l : list T) : ss_op T -> ss_out T -> list T -> Prop :=
(* add *)
| sp_add_full e : length l = cap -> ss_spec cap l (SAdd e) (OErr OutOfSpace) l
| sp_add_dup e : length l <> cap -> has_key l e -> ss_spec cap l (SAdd e) (OErr AlreadyExists) l
| sp_add_ok e l' : length l <> cap -> ~ has_key l e -> Permutation l' (e :: l) ->
    ss_spec cap l (SAdd e) (OIdx (rank l e)) l'
(* add_contiguous_slice: all or nothing, only where the run fits into one gap *)
| sp_slice_nil : ss_spec cap l (SAddSlice []) (OIdx 0) l
| sp_slice_full es : es <> [] -> cap < length l + length es -> ss_spec cap l (SAddSlice es) (OErr OutOfSpace) l
| sp_slice_ok e0 es l' : length l + length (e0 :: es) <= cap -> strictly_sorted (e0 :: es) ->
    (forall x, In x l -> lt_elt x e0 \/ lt_elt (last (e0 :: es) e0) x) ->
    Permutation l' ((e0 :: es) ++ l) -> ss_spec cap l (SAddSlice (e0 :: es)) (OIdx (rank l e0)) l'
| sp_slice_bad e0 es err : length l + length (e0 :: es) <= cap -> err = NotSorted \/ err = AlreadyExists ->
    (~ strictly_sorted (e0 :: es) \/
     exists x, In x l /\ ~ lt_elt x e0 /\ ~ lt_elt (last (e0 :: es) e0) x) ->
    ss_spec cap l (SAddSlice (e0 :: es)) (OErr err) l
(* remove *)
| sp_remove_ok e x l' : In x l -> same_key x e -> Permutation l (x :: l') ->
    ss_spec cap l (SRemove e) (OIdx (rank l e)) l'
| sp_remove_no e : ~ has_key l e -> ss_spec cap l (SRemove e) (OErr SsNotFound) l
(* remove_at_idx *)
| sp_at_ok i x l' : nth_error l i = Some x -> Permutation l (x :: l') -> ss_spec cap l (SRemoveAt i) (OElt (Some x)) l'
| sp_at_no i : nth_error l i = None -> ss_spec cap l (SRemoveAt i) (OElt None) l.
End Spec.
