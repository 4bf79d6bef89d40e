(** What the memory protection services promise, in terms of the state of each address. *)
From Verif Require Import Base.Prelude Gcd.Blocks Gcd.Model Gcd.Spec Gcd.Spin Gcd.SpinSpec Attr.Model.
Local Open Scope N_scope.

(** The state of address [x] in the memory map. *)
Definition at_addr (s : spin) (x : N) : option mstate := state_at (g_blocks (sp_gcd s)) x.

(** The same memory with attributes [a]. *)
Definition with_attrs (st : mstate) (a : N) : mstate :=
  mkMs (ms_alloc st) (ms_type st) (ms_caps st) a (ms_image st) (ms_device st).

(** Every address of the range is memory whose attributes, and nothing else, went through [f]; the others are as they
    were. *)
Definition rewritten (s s' : spin) (base len : N) (f : N -> N) : Prop :=
  (forall x, in_range base len x -> exists st, at_addr s x = Some st /\ ms_type st <> NonExistent /\
     at_addr s' x = Some (with_attrs st (f (ms_attrs st)))) /\
  (forall x, ~ in_range base len x -> at_addr s' x = at_addr s x).

(** Every address is as it was, or in the range with attributes that went through [f]. *)
Definition partly_rewritten (s s' : spin) (base len : N) (f : N -> N) : Prop :=
  forall x, at_addr s' x = at_addr s x \/
    (in_range base len x /\ exists st, at_addr s x = Some st /\ at_addr s' x = Some (with_attrs st (f (ms_attrs st)))).

(** ** Attribute bits: 13 no access at all, 14 no execution, 17 no writing. *)
Definition readable (a : N) : Prop := N.testbit a 13 = false.
Definition writable (a : N) : Prop := N.testbit a 13 = false /\ N.testbit a 17 = false.
Definition executable (a : N) : Prop := N.testbit a 13 = false /\ N.testbit a 14 = false.

(** ... and of a mapping, as the processor enforces it. *)
Definition page_writable (m : option N) : Prop := exists a, m = Some a /\ N.testbit a 17 = false.
Definition page_executable (m : option N) : Prop := exists a, m = Some a /\ N.testbit a 14 = false.

(** ** Sections of an image

    Bit 5 marks code, bit 30 readable and bit 31 writable contents. *)
Definition may_execute (chars : N) : Prop := N.testbit chars 5 = true.
Definition may_write (chars : N) : Prop :=
  N.testbit chars 5 = false /\ (N.testbit chars 31 = true \/ N.testbit chars 30 = false).

(** [n] is [size] rounded up to a multiple of [alignment]. *)
Definition rounded (size alignment n : N) : Prop :=
  size <= n < size + alignment /\ n mod alignment = 0.

(** [x] is in the section: from its address in the image, its size rounded up to the alignment. *)
Definition in_section (image_base alignment : N) (c : section) (x : N) : Prop :=
  exists n, rounded (sc_size c) alignment n /\ in_range (image_base + sc_va c) n x.

(** The last section of the list that contains [x] is [c]. *)
Definition last_section (image_base alignment : N) (l : list section) (x : N) (c : section) : Prop :=
  exists l1 l2, l = l1 ++ c :: l2 /\ in_section image_base alignment c x /\
    forall c', In c' l2 -> ~ in_section image_base alignment c' x.

(** Section headers have 32-bit sizes and alignments, and no section reaches past the last address. *)
Definition image_wf (image_base alignment : N) (l : list section) : Prop :=
  alignment < 2 ^ 32 /\ forall c, In c l -> sc_size c < 2 ^ 32 /\ image_base + sc_va c + sc_size c + alignment < 2 ^ 64.

(** The same memory: only its attributes and capabilities may differ. *)
Definition same_memory (st st' : mstate) : Prop :=
  ms_alloc st' = ms_alloc st /\ ms_type st' = ms_type st /\ ms_image st' = ms_image st /\ ms_device st' = ms_device st.

Definition protected_as (chars : N) (a : N) : Prop :=
  readable a /\ (executable a <-> may_execute chars) /\ (writable a <-> may_write chars).

(** ** Reading *)

(** A longest stretch of addresses in one state. *)
Definition stretch (s : spin) (base len : N) (st : mstate) : Prop :=
  0 < len /\ (forall x, in_range base len x -> at_addr s x = Some st) /\
  (base = 0 \/ at_addr s (base - 1) <> Some st) /\ at_addr s (base + len) <> Some st.

(** ** Component page attributes: what each access type allows *)
Definition allows_read (a : access) : bool := match a with NoAccess => false | _ => true end.
Definition allows_write (a : access) : bool := match a with ReadWrite | ReadWriteExecute => true | _ => false end.
Definition allows_execute (a : access) : bool := match a with ReadExecute | ReadWriteExecute => true | _ => false end.

Definition grants (acc : access) (a : N) : Prop :=
  (readable a <-> allows_read acc = true) /\ (writable a <-> allows_write acc = true) /\ (executable a <-> allows_execute acc = true).

(** Cacheability attributes: uncached, write-combining, write-through, write-back and write-protected. *)
Definition cache_bit (c : caching) : N :=
  match c with Uncached => 0 | WriteCombining => 1 | WriteThrough => 2 | WriteBack => 3 | WriteProtect => 12 end.
Definition is_cache_bit (i : N) : Prop := i <= 4 \/ i = 12.
Definition is_access_bit (i : N) : Prop := i = 13 \/ i = 14 \/ i = 17.
Definition cached_as (c : caching) (a : N) : Prop := forall i, is_cache_bit i -> (N.testbit a i = true <-> i = cache_bit c).

(** New attributes [b] for old ones [a]: access [acc], cacheability [c] if given, and the rest as before. *)
Definition set_as (acc : access) (c : option caching) (a b : N) : Prop :=
  grants acc b /\
  (forall i, is_cache_bit i -> match c with Some c => N.testbit b i = true <-> i = cache_bit c | None => N.testbit b i = N.testbit a i end) /\
  (forall i, ~ is_cache_bit i -> ~ is_access_bit i -> N.testbit b i = N.testbit a i).

(** No assertion failed up to [s'].  A debug build that goes on has met none; a release build only logs them. *)
Definition no_assertion (s s' : spin) : Prop := sp_alarm s' = false \/ (s_dbg s = true /\ sp_alarm s = false).

(** A request the protocol accepts: whole pages, and a non-empty choice of the three access attributes. *)
Definition acceptable (base len attrs : N) : Prop :=
  page_aligned base /\ page_aligned len /\ attrs <> 0 /\ forall i, N.testbit attrs i = true -> is_access_bit i.

(** The attributes of a state. *)
Definition attrs_at (s : spin) (x : N) : option N := option_map ms_attrs (at_addr s x).
