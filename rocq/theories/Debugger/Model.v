(** The debugger's access to memory, core/patina_debugger/src/memory.rs, and its software breakpoints, dbg_target/breakpoint.rs.
    The page table is a map from the bases of 4 KiB pages to attributes.  Loops run on fuel; running out is [Panic], which the proofs exclude for
    the ranges they speak of. *)
From Verif Require Import Base.Prelude Mm.Model.
Local Open Scope N_scope.

(** The processor's memory and page table. *)
Record env := Env { e_mem : mem; e_attr : N -> option N }.
(** What cannot be seen in the table: addresses that fault although they are mapped; pages inside a larger mapping, for which a change needs a new
    table, and the debugger's allocator panics (memory.rs:155-161); pages for which a change is refused. *)
Record hw := Hw { hw_bogus : N -> bool; hw_large : N -> bool; hw_refuses : N -> bool }.

(** memory.rs:16-17. *)
Definition PAGE_SIZE : N := 4096.
Definition page_of (x : N) : N := x - x mod PAGE_SIZE.
(** MemoryAttributes::ReadProtect (bit 13) and ReadOnly (bit 17) of patina_paging. *)
Definition read_protect (a : N) : bool := N.testbit a 13.
Definition read_only (a : N) : bool := N.testbit a 17.

(** PageTable::query_memory_region and map_memory_region, for one page. *)
Definition query (e : env) (page : N) : option N := e_attr e page.
Definition map_region (h : hw) (e : env) (page attr : N) : res unit env :=
  if hw_large h page then Panic
  else if hw_refuses h page then Err tt
  else Ok (Env (e_mem e) (fun p => if p =? page then Some attr else e_attr e p)).

(** memory.rs:128-131. *)
Definition page_valid (e : env) (page : N) : bool := match query e page with Some a => negb (read_protect a) | None => false end.

(** memory.rs:126-150. *)
Fixpoint check_pages (fuel : nat) (e : env) (start last length page : N) : res unit N :=
  match fuel with
  | O => Panic
  | S fuel =>
      if last <? page then Ok length
      else if negb (page_valid e page) then (if start <? page then Ok (page - start) else Err tt)
      else if page + PAGE_SIZE <? two64 then check_pages fuel e start last length (page + PAGE_SIZE)
      else Ok length
  end.
(** memory.rs:120-151. *)
Definition check_paging_range (dbg : bool) (e : env) (start length : N) : res unit N :=
  let* n := usub dbg length 1 in
  let* last := uadd dbg start n in
  check_pages (S (S (S (N.to_nat (length / PAGE_SIZE))))) e start last length (page_of start).

(** arch/x64.rs:183-197: a load of eight bytes, which is stepped over if it faults (199-207). *)
Definition poke (h : hw) (e : env) (address : N) : bool :=
  forallb (fun i => let x := (address + i) mod two64 in page_valid e (page_of x) && negb (hw_bogus h x)) [0; 1; 2; 3; 4; 5; 6; 7].

(** memory.rs:101-115. *)
Definition check_range_access (dbg : bool) (h : hw) (e : env) (address length : N) : res unit N :=
  let* len := check_paging_range dbg e address length in
  if poke h e address then Ok len else Err tt.

(** memory.rs:26-42: the bytes read; a buffer of [n] bytes. *)
Definition read_memory (dbg : bool) (h : hw) (e : env) (address n : N) (unsafe_read : bool) : res unit (list N) :=
  let* len := if unsafe_read then Ok n else check_range_access dbg h e address n in
  if len =? 0 then Err tt else Ok (readm (e_mem e) address (N.to_nat len)).

(** memory.rs:63-94; the bytes go to [address] on every page (79). *)
Fixpoint write_pages (fuel : nat) (h : hw) (e : env) (address end_ : N) (buffer : list N) (current : N) : res unit unit * env :=
  match fuel with
  | O => (Panic, e)
  | S fuel =>
      if end_ <=? current then (Ok tt, e)
      else
        let page := page_of current in
        let stop := N.min (page + PAGE_SIZE) end_ in
        let len := stop - current in
        let offset := current - address in
        match query e page with
        | None => (Panic, e)
        | Some attr =>
            match (if read_only attr then map_region h e page (N.clearbit attr 17) else Ok e) with
            | Panic => (Panic, e)
            | Err _ => (Err tt, e)
            | Ok e1 =>
                let e2 := Env (writem (e_mem e1) address (firstn (N.to_nat len) (skipn (N.to_nat offset) buffer))) (e_attr e1) in
                match (if read_only attr then map_region h e2 page attr else Ok e2) with
                | Ok e3 => write_pages fuel h e3 address end_ buffer (current + len)
                | _ => (Panic, e2)
                end
            end
        end
  end.
(** memory.rs:51-97. *)
Definition write_memory (dbg : bool) (h : hw) (e : env) (address : N) (buffer : list N) : res unit unit * env :=
  let n := N.of_nat (length buffer) in
  match uadd dbg address n with
  | Ok end_ =>
      match check_range_access dbg h e address n with
      | Ok valid =>
          if negb (valid =? n) then (Err tt, e)
          else write_pages (S (S (S (N.to_nat (n / PAGE_SIZE))))) h e address end_ buffer address
      | Err x => (Err x, e)
      | Panic => (Panic, e)
      end
  | Err x => (Err x, e)
  | Panic => (Panic, e)
  end.

(** ** Software breakpoints *)

(** breakpoint.rs:25-42: a slot holds the address and the bytes that were there; [None]: not set. *)
Definition MAX_BREAKPOINTS : nat := 25.
Definition slots := list (option (N * list N)).
Definition no_breakpoints : slots := repeat None MAX_BREAKPOINTS.

Fixpoint set_slot {A} (i : nat) (v : A) (l : list A) : list A :=
  match l, i with [], _ => [] | _ :: r, O => v :: r | x :: r, S i => x :: set_slot i v r end.
Fixpoint find_slot {A} (p : A -> bool) (i : nat) (l : list A) : option (nat * A) :=
  match l with [] => None | x :: r => if p x then Some (i, x) else find_slot p (S i) r end.

(** A buffer of [n] bytes after a read that delivered [l]; it starts with what was in the slot, zero bytes here. *)
Definition filled (n : nat) (l : list N) : list N := l ++ repeat 0 (n - length l).

(** breakpoint.rs:45-63; [bi] is the breakpoint instruction. *)
Definition add_breakpoint (dbg unsafe_read : bool) (h : hw) (bi : list N) (st : env * slots) (addr : N) : res unit bool * (env * slots) :=
  let (e, s) := st in
  match find_slot (fun x => match x with None => true | _ => false end) 0 s with
  | None => (Ok false, st)
  | Some (i, _) =>
      match read_memory dbg h e addr (N.of_nat (length bi)) unsafe_read with
      | Ok l =>
          match write_memory dbg h e addr bi with
          | (Ok _, e') => (Ok true, (e', set_slot i (Some (addr, filled (length bi) l)) s))
          | (Err x, e') => (Err x, (e', s))
          | (Panic, e') => (Panic, (e', s))
          end
      | Err x => (Err x, st)
      | Panic => (Panic, st)
      end
  end.
(** breakpoint.rs:65-77. *)
Definition remove_breakpoint (dbg : bool) (h : hw) (st : env * slots) (addr : N) : res unit bool * (env * slots) :=
  let (e, s) := st in
  match find_slot (fun x => match x with Some (a, _) => a =? addr | None => false end) 0 s with
  | Some (i, Some (_, original)) =>
      match write_memory dbg h e addr original with
      | (Ok _, e') => (Ok true, (e', set_slot i None s))
      | (Err x, e') => (Err x, (e', s))
      | (Panic, e') => (Panic, (e', s))
      end
  | _ => (Ok false, st)
  end.
