(** What the I/O-space services promise, independently of how the code updates the map.  [tiles], [merged],
    [state_at], [in_range], [range_changed] and [aligned] are those of Gcd/Spec.v. *)
From Verif Require Import Base.Prelude Gcd.Blocks Gcd.Model Gcd.Spec Io.Model.
Local Open Scope N_scope.

Definition io_op_wf (o : io_op) : Prop :=
  match o with
  | IoAdd _ b l | IoRemove b l | IoFree b l => word b /\ word l
  | IoAllocate at_ _ s l i _ =>
      word s /\ word l /\ word i /\
      match at_ with BottomUp (Some a) | TopDown (Some a) | AtAddress a => word a | _ => True end
  | IoDescriptors n c => word n /\ word c
  end.

(** The map the caller sees: before the first call it is one non-existent stretch. *)
Definition io_view (g : iogcd) : list ioblock :=
  match i_blocks g with
  | [] => [mkBlock 0 (i_max g) (mkIs false IoNonExistent 0 0)]
  | l => l
  end.

Definition io_reachable (dbg : bool) (bits : N) (ops : list io_op) (g : iogcd) : Prop :=
  bits < 64 /\ Forall io_op_wf ops /\ io_run (io_new dbg bits) ops = Some g.

Definition io_range (o : io_op) (r : N) : N * N :=
  match o with
  | IoAdd _ b l | IoRemove b l | IoFree b l => (b, l)
  | IoAllocate _ _ _ l _ _ => (r, l)
  | IoDescriptors _ _ => (0, 0)
  end.

(** What a successful call does to each address of its range. *)
Definition io_effect (o : io_op) (s s' : iostate) : Prop :=
  match o with
  | IoAdd ty _ _ =>
      is_alloc s = false /\ is_type s = IoNonExistent /\ ty <> IoNonExistent /\
      s' = mkIs false ty (is_image s) (is_device s)
  | IoRemove _ _ =>
      is_alloc s = false /\ is_type s <> IoNonExistent /\
      s' = mkIs false IoNonExistent (is_image s) (is_device s)
  | IoAllocate _ ty _ _ image device =>
      is_alloc s = false /\ is_type s = ty /\ ty <> IoNonExistent /\
      s' = mkIs true ty image (match device with Some d => d | None => is_device s end)
  | IoFree _ _ =>
      is_alloc s = true /\ is_type s <> IoNonExistent /\ s' = mkIs false (is_type s) 0 0
  | IoDescriptors _ _ => False
  end.

(** Unallocated existing I/O space of type [ty] everywhere in [a, a+len), in one uniform stretch. *)
Definition io_free_run (g : iogcd) (ty : io_type) (a len : N) : Prop :=
  ty <> IoNonExistent /\
  exists s, is_alloc s = false /\ is_type s = ty /\ forall x, in_range a len x -> state_at (io_view g) x = Some s.

(** Bottom-up: the run ends at or below [max]; top-down: its last byte is at or below [max]. *)
Definition io_feasible_up (g : iogcd) (ty : io_type) (align len max a : N) : Prop :=
  io_free_run g ty a len /\ aligned align a /\ a + len <= max.
Definition io_feasible_down (g : iogcd) (ty : io_type) (align len max a : N) : Prop :=
  io_free_run g ty a len /\ aligned align a /\ a + len <= max + 1.

Definition io_room (g : iogcd) : Prop := N.of_nat (length (io_view g)) + 2 <= IO_BLOCK_SLICE_LEN.

Definition io_uniform (g : iogcd) (base len : N) (s : iostate) : Prop :=
  forall a, in_range base len a -> state_at (io_view g) a = Some s.
