(** The debugger's text: monitor commands (core/patina_debugger/src/dbg_target/monitor.rs), the description of the target
    (dbg_target.rs:204-232), modules and registered commands (system.rs).  Strings are lists of bytes. *)
From Verif Require Import Base.Prelude.
Local Open Scope N_scope.
Definition str := list N.
Fixpoint str_eqb (a b : str) : bool :=
  match a, b with [], [] => true | x :: a, y :: b => (x =? y) && str_eqb a b | _, _ => false end.

(** ** The buffer for output *)

(** monitor.rs:168-173: the bytes held, the bytes still to be skipped, the packets sent. *)
Record mbuf := Mbuf { b_held : str; b_skip : N; b_out : list str }.
(** monitor.rs:187-193. *)
Definition flush (b : mbuf) : mbuf :=
  match b_held b with [] => b | d => Mbuf [] (b_skip b) (b_out b ++ [d]) end.
(** monitor.rs:197-229; the copy at 220 panics if it does not fit. *)
Definition write_str (n : N) (b : mbuf) (s : str) : res unit mbuf :=
  let len := N.of_nat (length s) in
  if (0 <? b_skip b) && (len <=? b_skip b) then Ok (Mbuf (b_held b) (b_skip b - len) (b_out b))
  else
    let data := if 0 <? b_skip b then skipn (N.to_nat (b_skip b)) s else s in
    let b := if 0 <? b_skip b then Mbuf (b_held b) 0 (b_out b) else b in
    let len := N.of_nat (length data) in
    if len <? n then
      let* room := usub true n (N.of_nat (length (b_held b))) in
      let b := if room <? len then flush b else b in
      if n <? N.of_nat (length (b_held b)) + len then Panic
      else Ok (Mbuf (b_held b ++ data) (b_skip b) (b_out b))
    else
      let b := flush b in Ok (Mbuf (b_held b) (b_skip b) (b_out b ++ [data])).
Fixpoint write_all (n : N) (b : mbuf) (l : list str) : res unit mbuf :=
  match l with [] => Ok b | s :: l => let* b := write_str n b s in write_all n b l end.

(** str::parse::<usize>: an optional plus sign, at least one digit, and a value that fits. *)
Fixpoint parse_digits (acc : N) (s : str) : option N :=
  match s with
  | [] => Some acc
  | c :: s => if (48 <=? c) && (c <=? 57) then let v := 10 * acc + (c - 48) in if v <? two64 then parse_digits v s else None else None
  end.
Definition parse_usize (s : str) : option N :=
  match s with
  | [] => None
  | 43 :: r => match r with [] => None | _ => parse_digits 0 r end
  | _ => parse_digits 0 s
  end.

(** monitor.rs:38-107: [run] gives what a command, with what follows it, writes.  The packets sent. *)
Definition monitor (run : list str -> list str) (tokens : list str) : res unit (list str) :=
  let (skip, tokens) :=
    match tokens with
    | t :: r =>
        if str_eqb (firstn 2 t) [79; 91] && str_eqb (skipn (length t - 1) t) [93]
        then ((match parse_usize (firstn (length t - 3) (skipn 2 t)) with Some v => v | None => 0 end), r)
        else (0, tokens)
    | [] => (0, [])
    end in
  let* b := write_all 128 (Mbuf [] skip []) (run tokens) in Ok (b_out (flush b)).

(** ** The description of the target *)

(** dbg_target.rs:211-231 for the document [doc]: the bytes put into a buffer of [room] bytes. *)
Definition description (dbg : bool) (doc : str) (offset length_ room : N) : res unit str :=
  let size := N.of_nat (length doc) in
  if size <=? offset then Ok []
  else
    let* e := uadd dbg offset length_ in
    let e := N.min e size in
    if e <? offset then Panic
    else
      let copy := firstn (N.to_nat (e - offset)) (skipn (N.to_nat offset) doc) in
      Ok (firstn (N.to_nat (N.min (N.of_nat (length copy)) room)) copy).

(** ** Modules *)

Record modules := Modules { m_list : list (str * N * N); m_breaks : list str; m_all : bool }.
Definition no_modules : modules := Modules [] [] false.
Definition dot_efi : str := [46; 101; 102; 105].
(** str::trim_end_matches, on the reversed string. *)
Fixpoint trim_rev (fuel : nat) (s : str) : str :=
  match fuel with
  | O => s
  | S fuel => if str_eqb (firstn 4 s) (rev dot_efi) then trim_rev fuel (skipn 4 s) else s
  end.
Definition trim_efi (s : str) : str := rev (trim_rev (length s) (rev s)).
(** eq_ignore_ascii_case. *)
Definition lower (c : N) : N := if (65 <=? c) && (c <=? 90) then c + 32 else c.
Definition eq_nocase (a b : str) : bool := str_eqb (map lower a) (map lower b).
(** system.rs:83-117. *)
Definition add_module (m : modules) (name : str) (base size : N) : modules := Modules (m_list m ++ [(name, base, size)]) (m_breaks m) (m_all m).
Definition check_module (m : modules) (name : str) : bool := m_all m || existsb (fun b => eq_nocase b (trim_efi name)) (m_breaks m).
Definition add_break (m : modules) (name : str) : modules :=
  match trim_efi name with [] => m | t => Modules (m_list m) (m_breaks m ++ [t]) (m_all m) end.
Definition break_all (m : modules) : modules := Modules (m_list m) (m_breaks m) true.
Definition clear_breaks (m : modules) : modules := Modules (m_list m) [] false.

(** debugger.rs:319-334: the module is added, and then it is tested; whether the debugger stops. *)
Definition notify_load (enabled : bool) (m : modules) (name : str) (base size : N) : bool * modules :=
  if enabled then let m := add_module m name base size in (check_module m name, m) else (false, m).

(** monitor.rs:143-158: the modules printed; none prints "No modules.". *)
Fixpoint list_loop (l : list (str * N * N)) (count printed : N) : list (str * N * N) :=
  match l with
  | [] => []
  | x :: l => x :: (if count <=? printed + 1 then [] else list_loop l count (printed + 1))
  end.
Definition list_modules (m : modules) (count start : option N) : list (str * N * N) :=
  let count := match count with Some c => c | None => u64_max end in
  let start := match start with Some c => c | None => 0 end in
  list_loop (skipn (N.to_nat start) (m_list m)) count 0.

(** system.rs:28-61: registered commands. *)
Definition add_command {A} (l : list (str * A)) (name : str) (f : A) : list (str * A) := l ++ [(name, f)].
Definition handle_command {A} (l : list (str * A)) (name : str) : option A :=
  match find (fun e => str_eqb (fst e) name) l with Some (_, f) => Some f | None => None end.
