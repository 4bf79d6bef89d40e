(* What a tree collection promises, without trees: a map with elements in key
   order, each in a slot of its own.  Nothing here mentions nodes, colours or
   links. *)
From Coq Require Import NArith List Bool Permutation Sorted.
Import ListNotations.
Local Open Scope N_scope.

(* Why an operation was refused. *)
Inductive refusal := NoSpace | Absent | Present.

Section MapSpec.
Context {D K : Type}.
Variable key : D -> K.
Variable cmp : K -> K -> comparison.

(* What Rust's Ord asks of cmp. *)
Record total_order : Prop := {
  to_refl : forall a, cmp a a = Eq;
  to_opp : forall a b, cmp b a = CompOpp (cmp a b);
  to_trans : forall a b c, cmp a b = Lt -> cmp b c = Lt -> cmp a c = Lt;
  to_eq : forall a b c, cmp a b = Eq -> cmp a c = cmp b c }.

(* The public operations. *)
Inductive op :=
| Add (d : D) | AddMany (ds : list D)
| Delete (k : K) | DeleteIdx (i : N)
| Get (k : K) | GetIdx (k : K) | GetWithIdx (i : N) | SetWithIdx (i : N) (d : D)
| GetClosestIdx (k : K)
| First | Last | FirstIdx | LastIdx
| Next (d : D) | Prev (d : D) | NextIdx (i : N) | PrevIdx (i : N)
| Dfs | Len | Capacity | Height.
Inductive reply :=
| RSlot (r : N + refusal) | RDone (r : option refusal)
| RData (r : option D) | RIdx (r : option N) | RList (r : list D) | RNum (n : N) | RBool (b : bool).

(* The map: its elements in key order with their slots, the number of slots
   that are lost for good, and the capacity. *)
Record amap := mkMap { a_ents : list (N * D); a_lost : N; a_cap : N }.
Definition slots (m : amap) : list N := map fst (a_ents m).
Definition size (m : amap) : N := N.of_nat (length (a_ents m)).
Definition in_order (l : list (N * D)) : Prop :=
  StronglySorted (fun p q => cmp (key (snd p)) (key (snd q)) = Lt) l.
Definition has (m : amap) (k : K) (i : N) (d : D) : Prop := In (i, d) (a_ents m) /\ cmp k (key d) = Eq.
Definition lacks (m : amap) (k : K) : Prop := forall i d, In (i, d) (a_ents m) -> cmp k (key d) <> Eq.

(* Adding one element. *)
Inductive sadd (m : amap) (d : D) : N + refusal -> amap -> Prop :=
| sadd_full : size m + a_lost m = a_cap m -> sadd m d (inr NoSpace) m
| sadd_dup i d' : size m + a_lost m < a_cap m -> has m (key d) i d' ->
    sadd m d (inr Present) (mkMap (a_ents m) (a_lost m + 1) (a_cap m))
| sadd_new i l : size m + a_lost m < a_cap m -> lacks m (key d) ->
    ~ In i (slots m) -> i < a_cap m ->
    in_order l -> Permutation l ((i, d) :: a_ents m) ->
    sadd m d (inl i) (mkMap l (a_lost m) (a_cap m)).
(* Adding several, one after the other, stopping at the first refusal. *)
Inductive sadds : amap -> list D -> N -> N + refusal -> amap -> Prop :=
| sadds_nil m i : sadds m [] i (inl i) m
| sadds_cons m m1 m2 d ds i j r : sadd m d (inl j) m1 -> sadds m1 ds j r m2 -> sadds m (d :: ds) i r m2
| sadds_stop m m1 d ds i e : sadd m d (inr e) m1 -> sadds m (d :: ds) i (inr e) m1.

(* Removing the element in slot i. *)
Definition sremove (m : amap) (i : N) (m' : amap) : Prop :=
  exists a d b, a_ents m = a ++ (i, d) :: b /\ m' = mkMap (a ++ b) (a_lost m) (a_cap m).
Definition neighbour (m : amap) (i : N) (after : bool) (r : option (N * D)) : Prop :=
  exists a d b, a_ents m = a ++ (i, d) :: b /\
    if after then r = hd_error b else r = hd_error (rev a).
Definition ith (p : option (N * D)) := option_map fst p.
Definition elem (p : option (N * D)) := option_map snd p.

(* One operation. *)
Inductive sstep (m : amap) : op -> reply -> amap -> Prop :=
| on_add d r m' : sadd m d r m' -> sstep m (Add d) (RSlot r) m'
| on_add_many_no ds : a_cap m < size m + a_lost m + N.of_nat (length ds) ->
    sstep m (AddMany ds) (RSlot (inr NoSpace)) m
| on_add_many ds r m' : size m + a_lost m + N.of_nat (length ds) <= a_cap m -> sadds m ds 0 r m' ->
    sstep m (AddMany ds) (RSlot r) m'
| on_delete k i d m' : has m k i d -> sremove m i m' -> sstep m (Delete k) (RDone None) m'
| on_delete_no k : lacks m k -> sstep m (Delete k) (RDone (Some Absent)) m
| on_delete_idx i m' : sremove m i m' -> sstep m (DeleteIdx i) (RDone None) m'
| on_get k i d : has m k i d -> sstep m (Get k) (RData (Some d)) m
| on_get_no k : lacks m k -> sstep m (Get k) (RData None) m
| on_get_idx k i d : has m k i d -> sstep m (GetIdx k) (RIdx (Some i)) m
| on_get_idx_no k : lacks m k -> sstep m (GetIdx k) (RIdx None) m
| on_get_with_idx i d : In (i, d) (a_ents m) -> sstep m (GetWithIdx i) (RData (Some d)) m
| on_set_with_idx i d d' a b : a_ents m = a ++ (i, d') :: b ->
    sstep m (SetWithIdx i d) (RBool true) (mkMap (a ++ (i, d) :: b) (a_lost m) (a_cap m))
| on_closest k i d a b : a_ents m = a ++ (i, d) :: b -> cmp k (key d) <> Lt ->
    (forall j e, In (j, e) b -> cmp k (key e) = Lt) -> sstep m (GetClosestIdx k) (RIdx (Some i)) m
| on_closest_no k : (forall j e, In (j, e) (a_ents m) -> cmp k (key e) = Lt) ->
    sstep m (GetClosestIdx k) (RIdx None) m
| on_first : sstep m First (RData (elem (hd_error (a_ents m)))) m
| on_last : sstep m Last (RData (elem (hd_error (rev (a_ents m))))) m
| on_first_idx : sstep m FirstIdx (RIdx (ith (hd_error (a_ents m)))) m
| on_last_idx : sstep m LastIdx (RIdx (ith (hd_error (rev (a_ents m))))) m
| on_next d i d' r : has m (key d) i d' -> neighbour m i true r -> sstep m (Next d) (RData (elem r)) m
| on_next_no d : lacks m (key d) -> sstep m (Next d) (RData None) m
| on_prev d i d' r : has m (key d) i d' -> neighbour m i false r -> sstep m (Prev d) (RData (elem r)) m
| on_prev_no d : lacks m (key d) -> sstep m (Prev d) (RData None) m
| on_next_idx i r : neighbour m i true r -> sstep m (NextIdx i) (RIdx (ith r)) m
| on_prev_idx i r : neighbour m i false r -> sstep m (PrevIdx i) (RIdx (ith r)) m
| on_dfs : sstep m Dfs (RList (map snd (a_ents m))) m
| on_len : sstep m Len (RNum (size m + a_lost m)) m
| on_capacity : sstep m Capacity (RNum (a_cap m)) m
| on_height h : sstep m Height (RNum h) m.

(* A history of operations and their replies. *)
Inductive shist : amap -> list op -> list reply -> amap -> Prop :=
| sh_nil m : shist m [] [] m
| sh_cons m m1 m2 o r os rs : sstep m o r m1 -> shist m1 os rs m2 -> shist m (o :: os) (r :: rs) m2.

Definition fresh (cap : N) : amap := mkMap [] 0 cap.

End MapSpec.
