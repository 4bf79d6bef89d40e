(** What it means for the page table to agree with the memory map. *)
From Verif Require Import Base.Prelude Gcd.Blocks Gcd.Model Gcd.Spec Gcd.Spin.
Local Open Scope N_scope.

(** How a page whose addresses are recorded with state [st] must be mapped:
    not at all if there is no memory there or it is read-protected, otherwise
    with the recorded cacheability, read-only and execute-protect bits (UC,
    WC, WT, WB, UCE, WP, RO, XP, RP). *)
Definition page_bits : N := 0x2701F.

Definition expected_mapping (st : mstate) : option N :=
  match ms_type st with
  | NonExistent => None
  | _ => if N.testbit (ms_attrs st) 13 then None else Some (N.land (ms_attrs st) page_bits)
  end.

(** The page containing address [a] is mapped as the memory map says. *)
Definition synced_at (s : spin) (a : N) : Prop :=
  forall t st, sp_pt s = Some t -> state_at (g_blocks (sp_gcd s)) a = Some st ->
    t (a / 4096) = expected_mapping st.

Definition in_sync (s : spin) : Prop := forall a, synced_at s a.

(** Calls for which the code promises to keep the two together: ranges
    removed are whole pages and the paging code does not fail for its own
    reasons while unmapping them; memory is not freed while the map is
    locked; attributes to set include at least one cacheability or access
    bit. *)
Definition careful (s : spin) (o : spin_op) : Prop :=
  match o with
  | SRemove b l => page_aligned b /\ page_aligned l /\ (sp_faults s = [] \/ exists r, sp_faults s = None :: r)
  | SFree _ _ => g_locked (sp_gcd s) = false
  | SSetAttributes _ _ a => N.land a page_bits <> 0
  | _ => True
  end.

(** [s'] is reached from [s] by [ops], each careful when it is made, and no
    call panicking or running forever. *)
Inductive careful_run : spin -> list spin_op -> spin -> Prop :=
| CR_nil : forall s, careful_run s [] s
| CR_cons : forall s o r s1 ops s',
    careful s o -> spin_step s o = (r, s1) -> r <> SPanic -> r <> SHang ->
    careful_run s1 ops s' -> careful_run s (o :: ops) s'.

Definition sop_wf (o : spin_op) : Prop :=
  match o with
  | SAdd ty b l c => op_wf (OpAdd ty b l c)
  | SRemove b l => op_wf (OpRemove b l)
  | SAllocate a ty sh l i d => op_wf (OpAllocate a ty sh l i d)
  | SFree b l => op_wf (OpFree b l)
  | SSetAttributes b l a => op_wf (OpSetAttributes b l a)
  | SSetCapabilities b l a => op_wf (OpSetCapabilities b l a)
  | SLock | SUnlock => True
  end.
