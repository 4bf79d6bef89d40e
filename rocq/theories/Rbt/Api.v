(* Histories of calls on the modelled trees. *)
From Coq Require Import NArith List Bool.
From Verif Require Import Base.Prelude Rbt.Model Rbt.Spec.
Import ListNotations.
Local Open Scope N_scope.

Section Api.
Context {D K : Type}.
Variable key : D -> K.
Variable cmp : K -> K -> comparison.
Notation st := (@st D).

(* Which of the two collections: rbt.rs Rbt or bst.rs Bst. *)
Inductive kind := Red_black | Plain.

Definition refusal_of (e : cerr) : refusal :=
  match e with OutOfSpace => NoSpace | NotFound => Absent | AlreadyExists => Present end.
Definition slot_reply (r : N + cerr) : @reply D :=
  RSlot (match r with inl i => inl i | inr e => inr (refusal_of e) end).
Definition then_reply {A} (m : @mon D A) (f : A -> @reply D) : @mon D (@reply D) :=
  mbind m (fun a => ret (f a)).

Definition add_of (kd : kind) : D -> @mon D (N + cerr) :=
  match kd with Red_black => rbt_add key cmp | Plain => bst_add key cmp end.
Definition remove_of (kd : kind) : N -> @mon D unit :=
  match kd with Red_black => remove_node_from_tree | Plain => bst_remove_node_from_tree end.

(* One public call (rbt.rs:54-561 and bst.rs, the methods named like the
   operations). *)
Definition run_op (kd : kind) (o : @op D K) : @mon D (@reply D) :=
  match o with
  | Add d => then_reply (add_of kd d) slot_reply
  | AddMany ds => then_reply (add_many (add_of kd) ds) slot_reply
  | Delete k => then_reply (delete_by key cmp (remove_of kd) k) (fun e => RDone (option_map refusal_of e))
  | DeleteIdx i => then_reply (delete_idx_by (remove_of kd) i) (fun e => RDone (option_map refusal_of e))
  | Get k => then_reply (get key cmp k) RData
  | GetIdx k => then_reply (get_idx key cmp k) RIdx
  | GetWithIdx i => then_reply (get_with_idx i) RData
  | SetWithIdx i d => then_reply (set_with_idx i d) RBool
  | GetClosestIdx k => then_reply (get_closest_idx key cmp k) RIdx
  | First => then_reply first RData
  | Last => then_reply last RData
  | FirstIdx => then_reply first_idx RIdx
  | LastIdx => then_reply last_idx RIdx
  | Next d => then_reply (next key cmp d) RData
  | Prev d => then_reply (prev key cmp d) RData
  | NextIdx i => then_reply (next_idx i) RIdx
  | PrevIdx i => then_reply (prev_idx i) RIdx
  | Dfs => then_reply dfs RList
  | Len => fun s => Val (RNum (len s), s)
  | Capacity => fun s => Val (RNum (capacity s), s)
  | Height => then_reply height RNum
  end.

(* A call, or moving the collection to another buffer: [raw] is what the new
   buffer of [cap] nodes holds. *)
Inductive cmd := Do (o : @op D K) | Grow (cap : N) (raw : N -> @cell D).
Definition run_cmd (kd : kind) (c : cmd) : @mon D (@reply D) :=
  match c with
  | Do o => run_op kd o
  | Grow cap raw => fun s => match tree_resize cap raw s with
                             | Val s' => Val (RNum cap, s')
                             | Panic => Panic | Fault => Fault | Hang => Hang
                             end
  end.
Fixpoint run (kd : kind) (cs : list cmd) : @mon D (list (@reply D)) :=
  match cs with
  | [] => ret []
  | c :: cs => mbind (run_cmd kd c) (fun r => mbind (run kd cs) (fun rs => ret (r :: rs)))
  end.

(* The two ways to make a tree.  The buffer given to with_capacity has a null
   pointer in the place of its last node's right link, as zeroed memory has. *)
Definition starts (s : st) : Prop :=
  (exists raw, s = tree_new raw) \/
  (exists cap raw, c_right (raw (cap - 1)) = None /\ tree_with_capacity cap raw = Val s).

(* An index is live when looking up some key gives it. *)
Definition live (s : st) (i : N) : Prop := exists k, get_idx key cmp k s = Val (Some i, s).
(* Index operations are used on live indices; the element behind an index is
   only replaced by one with an equal key. *)
Definition legal (s : st) (o : @op D K) : Prop :=
  match o with
  | DeleteIdx i | GetWithIdx i | NextIdx i | PrevIdx i => live s i
  | SetWithIdx i d => exists k, get_idx key cmp k s = Val (Some i, s) /\ cmp k (key d) = Eq
  | _ => True
  end.
Definition deletes (o : @op D K) : bool := match o with Delete _ | DeleteIdx _ => true | _ => false end.
(* A whole history: [clean] says nothing has been deleted yet.  The collection
   is only moved to a buffer with room to spare, zeroed at the end, before the
   first delete. *)
Fixpoint legal_run (kd : kind) (clean : bool) (s : st) (cs : list cmd) : Prop :=
  match cs with
  | [] => True
  | c :: cs =>
      (match c with
       | Do o => legal s o
       | Grow cap raw => clean = true /\ len s < cap /\ c_right (raw (cap - 1)) = None
       end) /\
      match run_cmd kd c s with
      | Val (_, s') =>
          legal_run kd (match c with Do o => clean && negb (deletes o) | Grow _ _ => clean end) s' cs
      | _ => True
      end
  end.
Definition clean_cmd (c : cmd) : bool := match c with Do o => negb (deletes o) | Grow _ _ => true end.

(* The history as the specification sees it. *)
Inductive agrees : @amap D -> list cmd -> list (@reply D) -> @amap D -> Prop :=
| ag_nil m : agrees m [] [] m
| ag_do m m1 m2 o r cs rs : sstep key cmp m o r m1 -> agrees m1 cs rs m2 -> agrees m (Do o :: cs) (r :: rs) m2
| ag_grow m m2 cap raw cs rs : agrees (mkMap (a_ents m) (a_lost m) cap) cs rs m2 ->
    agrees m (Grow cap raw :: cs) (RNum cap :: rs) m2.

End Api.
