(** What GetMemoryMap must report. *)
From Verif Require Import Base.Prelude Base.Bytes Gcd.Blocks Gcd.Model Gcd.Spec Alloc.Model MemMap.Model.
Local Open Scope N_scope.

Definition covers (d : descr) (x : N) : Prop := in_range (d_start d) (d_pages d * 4096) x.

(** The memory type of an address in state [st]: that of the allocator that owns it, allocated or kept in reserve;
    else by the type in the GCD.  Addresses without memory have none. *)
Definition reported (s : sys) (st : mstate) (ty : N) : Prop :=
  (exists a, In a (s_als s) /\ al_handle a = ms_image st /\ al_type a = ty) \/
  ((forall a, In a (s_als s) -> al_handle a <> ms_image st) /\
   match ms_type st with
   | SystemMemory => ty = 7
   | Reserved => ty = 0
   | MemoryMappedIo => (N.testbit (ms_attrs st) 62 = true /\ ty = 12) \/ (N.testbit (ms_attrs st) 62 = false /\ ty = 11)
   | Persistent => ty = 14
   | Unaccepted => ty = 15
   | NonExistent | MoreReliable => False
   end).

(** The attributes, bit by bit.  Bit 63 says the operating system must keep the memory mapped; 13, 14 and 17 are read,
    execute and write protection. *)
Definition attr_bit (active : bool) (st : mstate) (ty i : N) : Prop :=
  if i =? 63 then N.testbit (ms_attrs st) 63 = true \/ ty = 5 \/ ty = 6
  else if active then N.testbit (ms_attrs st) i = true
  else N.testbit (ms_caps st) i = true /\ i <> 13 /\ i <> 14 /\ i <> 17.

(** Every page has one state. *)
Definition page_grid (g : gcd) : Prop :=
  forall x y, x / 4096 = y / 4096 -> state_at (g_blocks g) x = state_at (g_blocks g) y.

(** Two byte strings that differ only within four consecutive bytes. *)
Definition small_change (u v : list N) : Prop :=
  exists before w1 w2 after, u = before ++ w1 ++ after /\ v = before ++ w2 ++ after /\ w1 <> w2 /\
    length w1 = length w2 /\ (length w1 <= 4)%nat.

(** How a caller reads the map: the field of [len] bytes at offset [off] of entry [i], entries [size] bytes apart.
    Memory types have 32 bits and attributes 64, which the numbers of the model do not enforce: hence the remainders. *)
Definition entry_field (bytes : list N) (size i off len : nat) : N := le_val (firstn len (skipn (i * size + off) bytes)).
Definition describes (bytes : list N) (i : nat) (d : descr) : Prop :=
  entry_field bytes 40 i 0 4 = d_type d mod 2 ^ 32 /\ entry_field bytes 40 i 8 8 = d_start d /\ entry_field bytes 40 i 16 8 = 0 /\
  entry_field bytes 40 i 24 8 = d_pages d /\ entry_field bytes 40 i 32 8 = d_attr d mod 2 ^ 64.
