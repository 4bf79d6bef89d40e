(* Model of core/patina_internal_collections: the node storage (node.rs), the
   red-black tree (rbt.rs) and the plain binary search tree (bst.rs).

   The model is at pointer level.  A buffer of [s_cap] nodes is a function from
   slot numbers to cells; a pointer to a node is its slot number and the null
   pointer is [None].  A pointer that does not point into the buffer is a slot
   number >= [s_cap]; using it is [Fault] (undefined behaviour in Rust).
   Simplifications: the atomics are plain cells (the trees are used through
   &mut or under a lock); the byte buffer is already cut into nodes; turning a
   raw pointer into a reference without using it is not a fault. *)
From Coq Require Import NArith List Bool Lia.
From Verif Require Import Base.Prelude.
Import ListNotations.
Local Open Scope N_scope.

(* core/patina_internal_collections/src/lib.rs:73-83 *)
Inductive cerr := OutOfSpace | NotFound | AlreadyExists.

(* Outcome of running code: a value, a Rust panic, a use of a bad pointer, or
   fuel exhausted (a loop that did not finish). *)
Inductive out (A : Type) := Val (a : A) | Panic | Fault | Hang.
Arguments Val {A}. Arguments Panic {A}. Arguments Fault {A}. Arguments Hang {A}.

Section Collections.
Context {D K : Type}.
(* lib.rs:86-92 SliceKey: every element has a key of a totally ordered type. *)
Variable key : D -> K.
Variable cmp : K -> K -> comparison.

(* node.rs:19-21 *)
Definition RED := false.
Definition BLACK := true.

(* node.rs:458-467 Node *)
Record cell := mkCell {
  c_data : D; c_color : bool;
  c_parent : option N; c_left : option N; c_right : option N }.

(* node.rs:29-39 Storage (data, length, available) together with the root
   pointer of rbt.rs:27-33 / bst.rs. *)
Record st := mkSt {
  s_cap : N; s_at : N -> cell; s_len : N; s_avail : option N; s_root : option N }.

Definition with_parent (c : cell) v := mkCell (c_data c) (c_color c) v (c_left c) (c_right c).
Definition with_left (c : cell) v := mkCell (c_data c) (c_color c) (c_parent c) v (c_right c).
Definition with_right (c : cell) v := mkCell (c_data c) (c_color c) (c_parent c) (c_left c) v.
Definition with_color (c : cell) v := mkCell (c_data c) v (c_parent c) (c_left c) (c_right c).
Definition with_data (c : cell) v := mkCell v (c_color c) (c_parent c) (c_left c) (c_right c).

Definition upd (f : N -> cell) (i : N) (g : cell -> cell) : N -> cell :=
  fun j => if j =? i then g (f j) else f j.
Definition with_at (s : st) f := mkSt (s_cap s) f (s_len s) (s_avail s) (s_root s).
Definition with_root (s : st) r := mkSt (s_cap s) (s_at s) (s_len s) (s_avail s) r.
Definition upds (s : st) i g := with_at s (upd (s_at s) i g).

Definition mon (A : Type) := st -> out (A * st).
Definition ret {A} (a : A) : mon A := fun s => Val (a, s).
Definition mbind {A B} (m : mon A) (k : A -> mon B) : mon B :=
  fun s => match m s with
           | Val (a, s') => k a s'
           | Panic => Panic | Fault => Fault | Hang => Hang
           end.
Definition mpanic {A} : mon A := fun _ => Panic.
Definition mhang {A} : mon A := fun _ => Hang.

Notation "'do' x <- m ; k" := (mbind m (fun x => k)) (at level 200, x name, m at level 100, k at level 200).
Notation "'do_' m ; k" := (mbind m (fun _ => k)) (at level 200, m at level 100, k at level 200).

(* Dereferencing a node pointer, reading or writing. *)
Definition deref (i : N) : mon cell :=
  fun s => if i <? s_cap s then Val (s_at s i, s) else Fault.
Definition modify (i : N) (g : cell -> cell) : mon unit :=
  fun s => if i <? s_cap s then Val (tt, upds s i g) else Fault.

(* node.rs:273-365 NodeTrait for Node *)
Definition n_parent i : mon (option N) := do c <- deref i; ret (c_parent c).
Definition n_left i : mon (option N) := do c <- deref i; ret (c_left c).
Definition n_right i : mon (option N) := do c <- deref i; ret (c_right c).
Definition n_color i : mon bool := do c <- deref i; ret (c_color c).
Definition n_data i : mon D := do c <- deref i; ret (c_data c).
Definition n_set_parent i v : mon unit := modify i (fun c => with_parent c v).
Definition n_set_left i v : mon unit := modify i (fun c => with_left c v).
Definition n_set_right i v : mon unit := modify i (fun c => with_right c v).
Definition n_set_color i v : mon unit := modify i (fun c => with_color c v).

(* node.rs:367-456 NodeTrait for Option<&Node>: reads of None give null/black,
   writes through None do nothing. *)
Definition o_parent (p : option N) : mon (option N) :=
  match p with Some i => n_parent i | None => ret None end.
Definition o_left (p : option N) : mon (option N) :=
  match p with Some i => n_left i | None => ret None end.
Definition o_right (p : option N) : mon (option N) :=
  match p with Some i => n_right i | None => ret None end.
Definition o_color (p : option N) : mon bool :=
  match p with Some i => n_color i | None => ret BLACK end.
Definition o_set_parent (p : option N) v : mon unit :=
  match p with Some i => n_set_parent i v | None => ret tt end.
Definition o_set_left (p : option N) v : mon unit :=
  match p with Some i => n_set_left i v | None => ret tt end.
Definition o_set_right (p : option N) v : mon unit :=
  match p with Some i => n_set_right i v | None => ret tt end.
Definition o_set_color (p : option N) v : mon unit :=
  match p with Some i => n_set_color i v | None => ret tt end.

(* Pointer comparison. *)
Definition peq (a b : option N) : bool :=
  match a, b with
  | Some i, Some j => i =? j
  | None, None => true
  | _, _ => false
  end.
Definition is_none (a : option N) : bool := match a with None => true | _ => false end.

(* head.store(..) / root.store(..) *)
Definition set_root (r : option N) : mon unit := fun s => Val (tt, with_root s r).
Definition get_root : mon (option N) := fun s => Val (s_root s, s).

(* Loops run on fuel; a walk in a tree of at most [s_cap] nodes fits. *)
Definition fuel (s : st) : nat := S (N.to_nat (s_cap s)).
Definition with_fuel {A} (f : nat -> mon A) : mon A := fun s => f (fuel s) s.

(* ------------------------------------------------------------------ *)
(* Storage *)

(* node.rs:73-80 build_linked_list(&buffer[from..]): [count] nodes starting at
   [from]; panics on the empty slice (buffer[0]).  The last node's right
   pointer and the first one's left pointer are left as they were. *)
Fixpoint link_from (count : nat) (i : N) (f : N -> cell) : N -> cell :=
  match count with
  | O => f
  | S n => link_from n (i + 1)
             (upd (upd f i (fun c => with_right c (Some (i + 1)))) (i + 1)
                  (fun c => with_left c (Some i)))
  end.
Definition build_linked_list (from cap : N) (f : N -> cell) : out (N -> cell) :=
  if from <? cap then Val (link_from (N.to_nat (cap - from - 1)) from f) else Panic.

(* node.rs:46-53, rbt.rs:44 new(): an empty tree over an empty buffer.  [raw] is
   never read. *)
Definition tree_new (raw : N -> cell) : st := mkSt 0 raw 0 None None.

(* node.rs:56-71, rbt.rs:49-51 with_capacity: [raw] is the content of the byte
   buffer, cut into [cap] nodes. *)
Definition tree_with_capacity (cap : N) (raw : N -> cell) : out st :=
  match build_linked_list 0 cap raw with
  | Val f => Val (mkSt cap f 0 (Some 0) None)
  | Panic => Panic | Fault => Fault | Hang => Hang
  end.

(* node.rs:98-112 Storage::add *)
Definition storage_add (d : D) : mon (option N) := fun s =>
  match s_avail s with
  | Some i =>
      if s_len s =? s_cap s then Val (None, s)
      else (do nxt <- n_right i;
            do_ (fun s => Val (tt, mkSt (s_cap s) (s_at s) (s_len s) nxt (s_root s)));
            do_ n_set_left i None;
            do_ n_set_right i None;
            do_ n_set_parent i None;
            do_ modify i (fun c => with_data c d);
            do_ (fun s => Val (tt, mkSt (s_cap s) (s_at s) (s_len s + 1) (s_avail s) (s_root s)));
            ret (Some i)) s
  | None => Val (None, s)
  end.

(* node.rs:120-138 Storage::delete (of a node that is not null).  The length
   is a usize: taking one from zero is a panic in debug builds and wraps in
   release builds; it is a panic here and shown never to happen. *)
Definition storage_delete (i : N) : mon unit :=
  do_ n_set_parent i None;
  do_ n_set_left i None;
  do a <- (fun s => Val (s_avail s, s));
  do_ (match a with
       | Some r => do_ n_set_right i (Some r); n_set_left r (Some i)
       | None => n_set_right i None
       end);
  fun s => if s_len s =? 0 then Panic
           else Val (tt, mkSt (s_cap s) (s_at s) (s_len s - 1) (Some i) (s_root s)).

(* node.rs:202-228: the copy of the first [len] nodes; links are re-based, so
   slot numbers carry over; a slot beyond the new buffer is an index panic. *)
Definition fits (cap : N) (p : option N) : bool :=
  match p with Some i => i <? cap | None => true end.
Definition copy_cell (old : N -> cell) (buf : N -> cell) (i : N) : N -> cell :=
  upd buf i (fun _ => mkCell (c_data (old i)) (c_color (old i)) (c_parent (old i))
                             (c_left (old i)) (c_right (old i))).
Fixpoint copy_cells (count : nat) (i cap : N) (old buf : N -> cell) : out (N -> cell) :=
  match count with
  | O => Val buf
  | S n =>
      if fits cap (c_left (old i)) && fits cap (c_right (old i)) && fits cap (c_parent (old i))
      then copy_cells n (i + 1) cap old (copy_cell old buf i)
      else Panic
  end.

(* node.rs:183-240 Storage::resize and rbt.rs:852-861 / bst.rs:616-625 resize:
   [cap] and [raw] describe the new buffer. *)
Definition tree_resize (cap : N) (raw : N -> cell) (s : st) : out st :=
  if cap <? s_len s then Panic
  else if s_cap s =? 0 then
    match build_linked_list 0 cap raw with
    | Val f => Val (mkSt cap f (s_len s) (Some 0) (s_root s))
    | Panic => Panic | Fault => Fault | Hang => Hang
    end
  else
    match copy_cells (N.to_nat (s_len s)) 0 cap (s_at s) raw with
    | Val buf =>
        let idx := match s_avail s with Some a => a | None => s_len s end in
        match build_linked_list idx cap buf with
        | Val f =>
            match s_root s with
            | Some r => if r <? cap then Val (mkSt cap f (s_len s) (Some idx) (Some r)) else Panic
            | None => Val (mkSt cap f (s_len s) (Some idx) None)
            end
        | Panic => Panic | Fault => Fault | Hang => Hang
        end
    | Panic => Panic | Fault => Fault | Hang => Hang
    end.

(* ------------------------------------------------------------------ *)
(* Node helpers *)

(* node.rs:498-505 sibling *)
Definition sibling (i : N) : mon (option N) :=
  do p <- n_parent i;
  match p with
  | None => ret None
  | Some p =>
      do l <- n_left p;
      if peq (Some i) l then n_right p
      else do r <- n_right p;
           if peq (Some i) r then n_left p else mpanic
  end.

Fixpoint leftmost (n : nat) (i : N) : mon N :=
  match n with
  | O => mhang
  | S n => do l <- n_left i; match l with Some j => leftmost n j | None => ret i end
  end.
Fixpoint rightmost (n : nat) (i : N) : mon N :=
  match n with
  | O => mhang
  | S n => do r <- n_right i; match r with Some j => rightmost n j | None => ret i end
  end.

(* node.rs:507-513 successor, 515-521 predecessor *)
Definition successor (i : N) : mon (option N) :=
  do r <- n_right i;
  match r with
  | Some j => do k <- with_fuel (fun n => leftmost n j); ret (Some k)
  | None => ret None
  end.
Definition predecessor (i : N) : mon (option N) :=
  do l <- n_left i;
  match l with
  | Some j => do k <- with_fuel (fun n => rightmost n j); ret (Some k)
  | None => ret None
  end.

(* node.rs:523-573 swap *)
Definition swap (a b : N) : mon unit :=
  do pa <- n_parent a;
  do pal <- o_left pa;
  do_ (if peq pal (Some a) then o_set_left pa (Some b) else o_set_right pa (Some b));
  do pb <- n_parent b;
  do pbl <- o_left pb;
  do_ (if peq pbl (Some b) then o_set_left pb (Some a) else o_set_right pb (Some a));
  do ca <- n_color a;
  do cb <- n_color b;
  do_ n_set_color a cb;
  do_ n_set_color b ca;
  do tp <- n_parent a;
  do vp <- n_parent b;
  do_ n_set_parent a vp;
  do_ n_set_parent b tp;
  do tl <- n_left a;
  do vl <- n_left b;
  do_ n_set_left a vl;
  do_ n_set_left b tl;
  do tr <- n_right a;
  do vr <- n_right b;
  do_ n_set_right a vr;
  do_ n_set_right b tr;
  do l1 <- n_left a;
  do_ o_set_parent l1 (Some a);
  do r1 <- n_right a;
  do_ o_set_parent r1 (Some a);
  do l2 <- n_left b;
  do_ o_set_parent l2 (Some b);
  do r2 <- n_right b;
  o_set_parent r2 (Some b).

(* ------------------------------------------------------------------ *)
(* Lookups; rbt.rs and bst.rs have the same text *)

(* rbt.rs:501-511 get_node *)
Fixpoint find_node (n : nat) (k : K) (cur : option N) : mon (option N) :=
  match n with
  | O => mhang
  | S n =>
      match cur with
      | None => ret None
      | Some i =>
          do d <- n_data i;
          match cmp k (key d) with
          | Eq => ret (Some i)
          | Lt => do l <- n_left i; find_node n k l
          | Gt => do r <- n_right i; find_node n k r
          end
      end
  end.
Definition get_node (k : K) : mon (option N) :=
  do r <- get_root; with_fuel (fun n => find_node n k r).

(* rbt.rs:217-222 get_with_idx: any slot of the buffer *)
Definition get_with_idx (i : N) : mon (option D) :=
  fun s => if i <? s_cap s then Val (Some (c_data (s_at s i)), s) else Val (None, s).

(* rbt.rs:173-178 get *)
Definition get (k : K) : mon (option D) :=
  do n <- get_node k;
  match n with Some i => do d <- n_data i; ret (Some d) | None => ret None end.

(* rbt.rs:267-269 get_idx *)
Definition get_idx (k : K) : mon (option N) := get_node k.

(* rbt.rs:287-301 get_closest_idx *)
Fixpoint closest (n : nat) (k : K) (cur best : option N) : mon (option N) :=
  match n with
  | O => mhang
  | S n =>
      match cur with
      | None => ret best
      | Some i =>
          do d <- n_data i;
          match cmp k (key d) with
          | Eq => ret (Some i)
          | Lt => do l <- n_left i; closest n k l best
          | Gt => do r <- n_right i; closest n k r (Some i)
          end
      end
  end.
Definition get_closest_idx (k : K) : mon (option N) :=
  do r <- get_root; with_fuel (fun n => closest n k r None).

(* rbt.rs:349-358 first_idx, 376-385 last_idx *)
Definition first_idx : mon (option N) :=
  do r <- get_root;
  match r with
  | Some i => do k <- with_fuel (fun n => leftmost n i); ret (Some k)
  | None => ret None
  end.
Definition last_idx : mon (option N) :=
  do r <- get_root;
  match r with
  | Some i => do k <- with_fuel (fun n => rightmost n i); ret (Some k)
  | None => ret None
  end.

(* rbt.rs:444-452 and 480-488: climbing until we come from the left (right) *)
Fixpoint climb (n : nat) (from_left : bool) (cur : N) : mon (option N) :=
  match n with
  | O => mhang
  | S n =>
      do p <- n_parent cur;
      match p with
      | None => ret None
      | Some p =>
          do q <- (if from_left then n_left p else n_right p);
          if peq q (Some cur) then ret (Some p) else climb n from_left p
      end
  end.

(* rbt.rs:435-453 next_idx *)
Definition next_idx (i : N) : mon (option N) := fun s =>
  if i <? s_cap s then
    (do r <- n_right i;
     match r with
     | Some _ => successor i
     | None => with_fuel (fun n => climb n true i)
     end) s
  else Val (None, s).

(* rbt.rs:471-489 prev_idx *)
Definition prev_idx (i : N) : mon (option N) := fun s =>
  if i <? s_cap s then
    (do l <- n_left i;
     match l with
     | Some _ => predecessor i
     | None => with_fuel (fun n => climb n false i)
     end) s
  else Val (None, s).

(* rbt.rs:313-316 first, 328-331 last, 397-401 next, 413-417 prev *)
Definition opt_data (p : option N) : mon (option D) :=
  match p with Some i => get_with_idx i | None => ret None end.
Definition first : mon (option D) := do i <- first_idx; opt_data i.
Definition last : mon (option D) := do i <- last_idx; opt_data i.
Definition next (d : D) : mon (option D) :=
  do i <- get_idx (key d);
  match i with Some i => do j <- next_idx i; opt_data j | None => ret None end.
Definition prev (d : D) : mon (option D) :=
  do i <- get_idx (key d);
  match i with Some i => do j <- prev_idx i; opt_data j | None => ret None end.

(* rbt.rs:867-882 dfs *)
Fixpoint dfs_from (n : nat) (p : option N) : mon (list D) :=
  match n with
  | O => mhang
  | S n =>
      match p with
      | None => ret nil
      | Some i =>
          do l <- n_left i; do a <- dfs_from n l;
          do d <- n_data i;
          do r <- n_right i; do b <- dfs_from n r;
          ret (a ++ d :: b)
      end
  end.
Definition dfs : mon (list D) := do r <- get_root; with_fuel (fun n => dfs_from n r).

(* ------------------------------------------------------------------ *)
(* Insertion *)

(* rbt.rs:137-160 add_node; false is AlreadyExists *)
Fixpoint add_node (n : nat) (cur node : N) : mon bool :=
  match n with
  | O => mhang
  | S n =>
      do dn <- n_data node;
      do dc <- n_data cur;
      match cmp (key dn) (key dc) with
      | Lt => do l <- n_left cur;
              match l with
              | Some j => add_node n j node
              | None => do_ n_set_left cur (Some node); do_ n_set_parent node (Some cur); ret true
              end
      | Gt => do r <- n_right cur;
              match r with
              | Some j => add_node n j node
              | None => do_ n_set_right cur (Some node); do_ n_set_parent node (Some cur); ret true
              end
      | Eq => ret false
      end
  end.

(* rbt.rs:632-649 rotate_left *)
Definition rotate_left (i : N) : mon (option N) :=
  do rc <- n_right i;
  do pt <- n_parent i;
  do b <- o_left rc;
  do_ n_set_right i b;
  do b' <- o_left rc;
  do_ o_set_parent b' (Some i);
  do_ o_set_left rc (Some i);
  do_ n_set_parent i rc;
  do_ o_set_parent rc pt;
  do pl <- o_left pt;
  do_ (if peq pl (Some i) then o_set_left pt rc
       else do pr <- o_right pt;
            if peq pr (Some i) then o_set_right pt rc else ret tt);
  ret rc.

(* rbt.rs:652-669 rotate_right *)
Definition rotate_right (i : N) : mon (option N) :=
  do lc <- n_left i;
  do pt <- n_parent i;
  do b <- o_right lc;
  do_ n_set_left i b;
  do b' <- o_right lc;
  do_ o_set_parent b' (Some i);
  do_ o_set_right lc (Some i);
  do_ n_set_parent i lc;
  do_ o_set_parent lc pt;
  do pl <- o_left pt;
  do_ (if peq pl (Some i) then o_set_left pt lc
       else do pr <- o_right pt;
            if peq pr (Some i) then o_set_right pt lc else ret tt);
  ret lc.

(* The repeated "if let Some(root) = rotate(..) && root.parent().is_none()
   { head.store(root); root.set_parent(None) }", e.g. rbt.rs:701-706. *)
Definition new_top (rot : mon (option N)) : mon unit :=
  do r <- rot;
  match r with
  | Some i =>
      do p <- n_parent i;
      if is_none p then do_ set_root (Some i); n_set_parent i None else ret tt
  | None => ret tt
  end.

(* rbt.rs:672-744 fixup_add *)
Fixpoint fixup_add (n : nat) (node : N) : mon unit :=
  match n with
  | O => mhang
  | S n =>
      do p <- n_parent node;
      match p with
      | None => n_set_color node BLACK
      | Some parent =>
          do pc <- n_color parent;
          if pc then ret tt
          else
            do g <- n_parent parent;
            match g with
            | None => mpanic
            | Some grandparent =>
                do uncle <- sibling parent;
                do uc <- o_color uncle;
                if negb uc then
                  do_ n_set_color parent BLACK;
                  do_ n_set_color grandparent RED;
                  do_ o_set_color uncle BLACK;
                  fixup_add n grandparent
                else
                  do gl <- n_left grandparent;
                  if peq (Some parent) gl then
                    do pr <- n_right parent;
                    do par <- (if peq (Some node) pr
                               then do_ new_top (rotate_left parent); ret node
                               else ret parent);
                    do_ new_top (rotate_right grandparent);
                    do_ n_set_color par BLACK;
                    n_set_color grandparent RED
                  else
                    do gr <- n_right grandparent;
                    if peq (Some parent) gr then
                      do pl <- n_left parent;
                      do par <- (if peq (Some node) pl
                                 then do_ new_top (rotate_right parent); ret node
                                 else ret parent);
                      do_ new_top (rotate_left grandparent);
                      do_ n_set_color par BLACK;
                      n_set_color grandparent RED
                    else mpanic
            end
      end
  end.

(* rbt.rs:95-111 Rbt::add; the error paths return after the slot was taken *)
Definition rbt_add (d : D) : mon (N + cerr) :=
  do a <- storage_add d;
  match a with
  | None => ret (inr OutOfSpace)
  | Some i =>
      do_ n_set_color i RED;
      do r <- get_root;
      match r with
      | None => do_ n_set_color i BLACK; do_ set_root (Some i); ret (inl i)
      | Some root =>
          do ok <- with_fuel (fun n => add_node n root i);
          if (ok : bool) then do_ with_fuel (fun n => fixup_add n i); ret (inl i)
          else ret (inr AlreadyExists)
      end
  end.

(* bst.rs:90-101 Bst::add *)
Definition bst_add (d : D) : mon (N + cerr) :=
  do a <- storage_add d;
  match a with
  | None => ret (inr OutOfSpace)
  | Some i =>
      do r <- get_root;
      match r with
      | None => do_ set_root (Some i); ret (inl i)
      | Some root =>
          do ok <- with_fuel (fun n => add_node n root i);
          if (ok : bool) then ret (inl i) else ret (inr AlreadyExists)
      end
  end.

(* rbt.rs:119-134 / bst.rs add_many: the room is checked first; the first
   failing add stops, the ones before it stay *)
Fixpoint add_all (add : D -> mon (N + cerr)) (ds : list D) (idx : N) : mon (N + cerr) :=
  match ds with
  | nil => ret (inl idx)
  | d :: ds =>
      do r <- add d;
      match r with inl i => add_all add ds i | inr e => ret (inr e) end
  end.
Definition add_many (add : D -> mon (N + cerr)) (ds : list D) : mon (N + cerr) := fun s =>
  if s_cap s <? s_len s + N.of_nat (length ds) then Val (inr OutOfSpace, s)
  else add_all add ds 0 s.

(* ------------------------------------------------------------------ *)
(* Deletion *)

(* rbt.rs:600-629 remove_node_with_zero_or_one_child *)
Definition remove01 (i : N) : mon (option N) :=
  do parent <- n_parent i;
  do l <- n_left i;
  match l with
  | Some lc =>
      do_ n_set_parent lc parent;
      do pl <- o_left parent;
      do_ (if peq pl (Some i) then o_set_left parent (Some lc) else o_set_right parent (Some lc));
      n_left i
  | None =>
      do r <- n_right i;
      match r with
      | Some rc =>
          do_ n_set_parent rc parent;
          do pl <- o_left parent;
          do_ (if peq pl (Some i) then o_set_left parent (Some rc) else o_set_right parent (Some rc));
          n_right i
      | None =>
          do pl <- o_left parent;
          if peq pl (Some i) then do_ o_set_left parent None; ret None
          else do pr <- o_right parent;
               if peq pr (Some i) then do_ o_set_right parent None; ret None
               else ret None
      end
  end.

(* bst.rs:569-598: the same except that a node that is not the left child is
   taken to be the right one *)
Definition bst_remove01 (i : N) : mon (option N) :=
  do parent <- n_parent i;
  do l <- n_left i;
  match l with
  | Some lc =>
      do_ n_set_parent lc parent;
      do pl <- o_left parent;
      do_ (if peq pl (Some i) then o_set_left parent (Some lc) else o_set_right parent (Some lc));
      n_left i
  | None =>
      do r <- n_right i;
      match r with
      | Some rc =>
          do_ n_set_parent rc parent;
          do pl <- o_left parent;
          do_ (if peq pl (Some i) then o_set_left parent (Some rc) else o_set_right parent (Some rc));
          n_right i
      | None =>
          do pl <- o_left parent;
          if peq pl (Some i) then do_ o_set_left parent None; ret None
          else do_ o_set_right parent None; ret None
      end
  end.

(* rbt.rs:747-844 fixup_delete *)
Definition red_sibling (node : N) (sib : option N) : mon (option N) :=
  do_ o_set_color sib BLACK;
  do p <- n_parent node;
  do_ o_set_color p RED;
  do pl <- o_left p;
  do_ (match p with
       | None => mpanic
       | Some p =>
           if peq pl (Some node) then new_top (rotate_left p) else new_top (rotate_right p)
       end);
  sibling node.

(* rbt.rs:794-842, cases 5 and 6 *)
Definition red_nephew (node : N) (sib : option N) : mon unit :=
  do p <- n_parent node;
  do pl <- o_left p;
  let is_left := peq (Some node) pl in
  do sr <- o_right sib;
  do src <- o_color sr;
  do sl <- o_left sib;
  do slc <- o_color sl;
  do sib2 <- (if is_left && src then
                do_ o_set_color sl BLACK;
                do_ o_set_color sib RED;
                do_ (match sib with None => mpanic | Some x => new_top (rotate_right x) end);
                sibling node
              else if negb is_left && slc then
                do_ o_set_color sr BLACK;
                do_ o_set_color sib RED;
                do_ (match sib with None => mpanic | Some x => new_top (rotate_left x) end);
                sibling node
              else ret sib);
  do p2 <- n_parent node;
  do pc <- o_color p2;
  do_ o_set_color sib2 pc;
  do_ o_set_color p2 BLACK;
  if is_left then
    do x <- o_right sib2;
    do_ o_set_color x BLACK;
    match p2 with None => mpanic | Some p => new_top (rotate_left p) end
  else
    do x <- o_left sib2;
    do_ o_set_color x BLACK;
    match p2 with None => mpanic | Some p => new_top (rotate_right p) end.

Fixpoint fixup_delete (n : nat) (node : option N) : mon unit :=
  match n with
  | O => mhang
  | S n =>
      do p <- o_parent node;
      match p with
      | None => o_set_color node BLACK
      | Some _ =>
          match node with
          | None => mpanic
          | Some node =>
              do sib0 <- sibling node;
              do sc <- o_color sib0;
              do sib <- (if negb sc then red_sibling node sib0 else ret sib0);
              do sl <- o_left sib;
              do slc <- o_color sl;
              do sr <- o_right sib;
              do src <- o_color sr;
              if slc && src then
                do_ o_set_color sib RED;
                do p <- n_parent node;
                do pc <- o_color p;
                if negb pc then o_set_color p BLACK
                else fixup_delete n p
              else red_nephew node sib
          end
      end
  end.

(* rbt.rs:557-597 remove_node_from_tree *)
Definition remove_node_from_tree (i : N) : mon unit :=
  do l <- n_left i;
  do r <- n_right i;
  if is_none l && is_none r then
    do_ with_fuel (fun n => fixup_delete n (Some i));
    do_ remove01 i;
    do p <- n_parent i;
    if is_none p then set_root None else ret tt
  else
    do moved_up <-
      (if is_none l || is_none r then
         do m <- remove01 i;
         do p <- n_parent i;
         do_ (if is_none p then do_ set_root m; o_set_parent m None else ret tt);
         ret m
       else
         do su <- successor i;
         match su with
         | None => mpanic
         | Some su =>
             do_ swap i su;
             do p <- n_parent su;
             do_ (if is_none p then do_ set_root (Some su); n_set_parent su None else ret tt);
             remove01 i
         end);
    do c <- n_color i;
    if c then with_fuel (fun n => fixup_delete n moved_up) else ret tt.

(* bst.rs:550-566 remove_node_from_tree *)
Definition bst_remove_node_from_tree (i : N) : mon unit :=
  do l <- n_left i;
  do r <- n_right i;
  if is_none l || is_none r then
    do m <- bst_remove01 i;
    do p <- n_parent i;
    if is_none p then do_ set_root m; o_set_parent m None else ret tt
  else
    do su <- successor i;
    match su with
    | None => mpanic
    | Some su =>
        do_ swap i su;
        do p <- n_parent su;
        do_ (if is_none p then do_ set_root (Some su); n_set_parent su None else ret tt);
        do_ bst_remove01 i;
        ret tt
    end.

(* rbt.rs:523-533 delete; None is Ok *)
Definition delete_by (remove : N -> mon unit) (k : K) : mon (option cerr) :=
  do n <- get_node k;
  match n with
  | None => ret (Some NotFound)
  | Some i => do_ remove i; do_ storage_delete i; ret None
  end.

(* rbt.rs:545-554 delete_with_idx *)
Definition delete_idx_by (remove : N -> mon unit) (i : N) : mon (option cerr) := fun s =>
  if i <? s_cap s then (do_ remove i; do_ storage_delete i; ret None) s
  else Val (Some NotFound, s).

Definition rbt_delete := delete_by remove_node_from_tree.
Definition rbt_delete_with_idx := delete_idx_by remove_node_from_tree.
Definition bst_delete := delete_by bst_remove_node_from_tree.
Definition bst_delete_with_idx := delete_idx_by bst_remove_node_from_tree.

(* rbt.rs:244-249 get_with_idx_mut followed by a write of a new element *)
Definition set_with_idx (i : N) (d : D) : mon bool := fun s =>
  if i <? s_cap s then Val (true, upds s i (fun c => with_data c d)) else Val (false, s).

(* rbt.rs:54-66 len, capacity *)
Definition len (s : st) : N := s_len s.
Definition capacity (s : st) : N := s_cap s.

(* rbt.rs:69-72, node.rs:483-496 height *)
Fixpoint height_from (n : nat) (p : option N) : mon N :=
  match n with
  | O => mhang
  | S n =>
      match p with
      | None => ret 0
      | Some i =>
          do l <- n_left i; do a <- height_from n l;
          do r <- n_right i; do b <- height_from n r;
          ret (N.max a b + 1)
      end
  end.
Definition height : mon N := do r <- get_root; with_fuel (fun n => height_from n r).

End Collections.
