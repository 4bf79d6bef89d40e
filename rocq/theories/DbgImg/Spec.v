(** What the table of loaded images is for: at rest a debugger finds in it the images that are loaded. *)
From Verif Require Import Base.Prelude DbgImg.Model.
Local Open Scope N_scope.

(** What happens: an image is registered or removed, or the debugger acknowledges by clearing the "modified" bit. *)
Inductive event := Add (ty loaded handle : N) | Remove (handle : N) | Acknowledge.

(** The loaded images after a history. *)
Definition live1 (l : list info) (e : event) : list info :=
  match e with
  | Add ty loaded handle => l ++ [Info ty loaded handle]
  | Remove handle => filter (fun i => negb (d_handle i =? handle)) l
  | Acknowledge => l
  end.
Definition live (h : list event) : list info := fold_left live1 h [].

(** A handle is that of one loaded image at a time, and the number of images stays below the range of the header's count, less one growth. *)
Fixpoint handles_ok (l : list info) (h : list event) : Prop :=
  match h with
  | [] => True
  | e :: h =>
      match e with
      | Add _ _ handle => ~ In handle (map d_handle l) /\ N.of_nat (length l) + 129 < two32
      | _ => True
      end /\ handles_ok (live1 l e) h
  end.

Definition steps (dbg : bool) (s : dstate) (e : event) : res efi_error (list dstate) :=
  match e with
  | Add ty loaded handle => new_entry dbg s ty loaded handle
  | Remove handle => remove_entry s handle
  | Acknowledge => Ok [with_status s (N.ldiff (d_status s) 2)]
  end.
Fixpoint run (dbg : bool) (s : dstate) (h : list event) : res efi_error dstate :=
  match h with
  | [] => Ok s
  | e :: h => match steps dbg s e with Ok l => run dbg (last l s) h | Err x => Err x | Panic => Panic end
  end.

Definition in_progress (s : dstate) : bool := N.testbit (d_status s) 0.
Definition modified (s : dstate) : bool := N.testbit (d_status s) 1.

(** A debugger that follows the header's pointer and count finds these entries: the array and each entry are live memory. *)
Definition shows (s : dstate) (l : list info) : Prop :=
  exists a, d_arrays s (d_ptr s) = Some a /\ d_size s = N.of_nat (length l) /\ (length l <= length a)%nat
    /\ forall k i, nth_error l k = Some i -> exists p, nth_error a k = Some p /\ p <> 0 /\ d_boxes s p = Some i.

(** The only memory in use is the array the header points at and the entries shown. *)
Definition nothing_else (s : dstate) : Prop :=
  (forall q, d_arrays s q <> None -> q = d_ptr s)
  /\ forall p, d_boxes s p <> None -> exists a k, d_arrays s (d_ptr s) = Some a /\ nth_error a k = Some p /\ N.of_nat k < d_size s.
