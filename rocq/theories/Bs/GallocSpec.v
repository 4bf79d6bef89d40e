(** What a program expects of its global allocator. *)
From Verif Require Import Base.Prelude Bs.GallocModel.
Local Open Scope N_scope.

(** A layout: the alignment is a power of two, and the size rounded up to it fits (core::alloc::Layout). *)
Definition layout_ok (size align : N) : Prop := (exists k, k < 64 /\ align = 2 ^ k) /\ 0 < size /\ size + align <= 2 ^ 63.

(** A pool that keeps to the UEFI specification: blocks are aligned to eight bytes, lie in the address space and do not overlap. *)
Definition apart (b b' : N * N) : Prop := fst b <> fst b' /\ (fst b + snd b <= fst b' \/ fst b' + snd b' <= fst b).
Definition pool_ok (live : list (N * N)) (pool : N -> option N) : Prop :=
  forall n p, pool n = Some p -> 0 < p /\ p mod 8 = 0 /\ p + n <= 2 ^ 64 /\ Forall (apart (p, n)) live.

(** A relation between any two entries of a list. *)
Inductive pairs {A} (R : A -> A -> Prop) : list A -> Prop :=
| pairs_nil : pairs R []
| pairs_cons : forall a l, Forall (R a) l -> pairs R l -> pairs R (a :: l).

(** What the program holds: address, size and alignment. *)
Definition holding : Type := N * (N * N).
Definition within (x : N) (h : holding) : Prop := fst h <= x /\ x < fst h + fst (snd h).

(** What a program can do: allocate, free what it holds, and write to what it holds, or where the pool has no block. *)
Inductive reach (dbg : bool) (live0 : list (N * N)) : gst -> list holding -> Prop :=
| reach_start : forall m, reach dbg live0 (Gst live0 [] m) []
| reach_alloc : forall st hs pool size align p st', reach dbg live0 st hs -> layout_ok size align -> pool_ok (g_live st) pool ->
    g_alloc dbg st pool size align = Ok (p, st') -> reach dbg live0 st' (if p =? 0 then hs else (p, (size, align)) :: hs)
| reach_free : forall st h1 h2 p size align st', reach dbg live0 st (h1 ++ (p, (size, align)) :: h2) ->
    g_dealloc dbg st p size align = Ok st' -> reach dbg live0 st' (h1 ++ h2)
| reach_write : forall st hs m, reach dbg live0 st hs ->
    (forall x b, In b (g_live st) -> fst b <= x -> x < fst b + snd b -> Forall (fun h => ~ within x h) hs -> m x = g_mem st x) ->
    reach dbg live0 (Gst (g_live st) (g_wild st) m) hs.
