(** The table of loaded images for debuggers: patina_dxe_core/src/config_tables/debug_image_info_table.rs:96-315.
    The heap is two maps from addresses to what lives there, entries and arrays of pointers to entries; addresses are never used again, and an
    allocation does not fail.  An access to freed memory is [Panic].  An operation gives the states after each of its writes, in order: these are
    what a debugger that stops the machine can see.  The pointer to the system table (137-179) is not modelled, nor is the case that the
    configuration table cannot be installed (124-127), where no table exists and the operations do nothing. *)
From Verif Require Import Base.Prelude.
Local Open Scope N_scope.

(** EfiDebugImageInfoNormal, 39-43. *)
Record info := Info { d_type : N; d_loaded : N; d_handle : N }.

(** The heap, the published header (61-65) and the private metadata (100-104). *)
Record dstate := DS {
  d_boxes : N -> option info;
  d_arrays : N -> option (list N);
  d_free : N;
  d_status : N; d_size : N; d_ptr : N;
  d_actual : N; d_slice : N }.

Definition upd {A} (f : N -> option A) (k : N) (v : option A) : N -> option A := fun x => if x =? k then v else f x.
Fixpoint set_nth (n : nat) (v : N) (l : list N) : list N :=
  match l, n with
  | [], _ => []
  | _ :: r, O => v :: r
  | x :: r, S n => x :: set_nth n v r
  end.

(** 96 and 113-135: the table is the first allocation. *)
Definition image_info_table_size : N := 128.
Definition initialize : dstate :=
  DS (fun _ => None) (upd (fun _ => None) 1 (Some (repeat 0 (N.to_nat image_info_table_size)))) 2 0 0 1 image_info_table_size 1.

Definition with_status (s : dstate) (x : N) : dstate := DS (d_boxes s) (d_arrays s) (d_free s) x (d_size s) (d_ptr s) (d_actual s) (d_slice s).
Definition with_size (s : dstate) (x : N) : dstate := DS (d_boxes s) (d_arrays s) (d_free s) (d_status s) x (d_ptr s) (d_actual s) (d_slice s).
Definition with_ptr (s : dstate) (x : N) : dstate := DS (d_boxes s) (d_arrays s) (d_free s) (d_status s) (d_size s) x (d_actual s) (d_slice s).
Definition with_actual (s : dstate) (x : N) : dstate := DS (d_boxes s) (d_arrays s) (d_free s) (d_status s) (d_size s) (d_ptr s) x (d_slice s).
Definition with_boxes (s : dstate) (x : N -> option info) : dstate := DS x (d_arrays s) (d_free s) (d_status s) (d_size s) (d_ptr s) (d_actual s) (d_slice s).
(** A write to the array that the metadata own. *)
Definition with_slot (s : dstate) (a : list N) : dstate :=
  DS (d_boxes s) (upd (d_arrays s) (d_slice s) (Some a)) (d_free s) (d_status s) (d_size s) (d_ptr s) (d_actual s) (d_slice s).

(** 200-207 and 262-269. *)
Definition begin_update (s : dstate) : dstate := with_status s (N.lor (d_status s) 1).
(** 237-244 and 307-314. *)
Definition end_update (s : dstate) : dstate := with_status s (N.lor (N.ldiff (d_status s) 1) 2).

Definition add32 (dbg : bool) (a b : N) : res efi_error N := if a + b <? two32 then Ok (a + b) else if dbg then Panic else Ok ((a + b) mod two32).

(** 209-226: the old array is freed when the new one takes its place (222), before the header changes (225). *)
Definition grow (dbg : bool) (s : dstate) : res efi_error (list dstate) :=
  if d_actual s <=? d_size s then
    let* n := add32 dbg (d_size s) image_info_table_size in
    match d_arrays s (d_slice s) with
    | None => Panic
    | Some a =>
        if N.of_nat (length a) <? d_size s then Panic
        else
          let new := firstn (N.to_nat (d_size s)) a ++ repeat 0 (N.to_nat ((n + two32 - d_size s) mod two32)) in
          let s1 := DS (d_boxes s) (upd (upd (d_arrays s) (d_slice s) None) (d_free s) (Some new)) (d_free s + 1)
                       (d_status s) (d_size s) (d_ptr s) (d_actual s) (d_free s) in
          let s2 := with_actual s1 n in
          let s3 := with_ptr s2 (d_slice s2) in
          Ok [s1; s2; s3]
    end
  else Ok [].

(** 182-245. *)
Definition new_entry (dbg : bool) (s : dstate) (ty loaded handle : N) : res efi_error (list dstate) :=
  let s1 := begin_update s in
  let* g := grow dbg s1 in
  let s2 := last g s1 in
  match d_arrays s2 (d_slice s2) with
  | None => Panic
  | Some a =>
      if N.of_nat (length a) <=? d_size s2 then Panic
      else
        let p := d_free s2 in
        let s3 := DS (upd (d_boxes s2) p (Some (Info ty loaded handle))) (d_arrays s2) (p + 1) (d_status s2) (d_size s2) (d_ptr s2) (d_actual s2) (d_slice s2) in
        let s4 := with_slot s3 (set_nth (N.to_nat (d_size s3)) p a) in
        let* n := add32 dbg (d_size s4) 1 in
        let s5 := with_size s4 n in
        Ok (s1 :: g ++ [s3; s4; s5; end_update s5])
  end.

(** The loop at 280-305, up to the entry with the handle: its index and its address. *)
Fixpoint search (boxes : N -> option info) (handle : N) (i : nat) (ps : list N) : res efi_error (option (nat * N)) :=
  match ps with
  | [] => Ok None
  | p :: r =>
      match boxes p with
      | None => Panic
      | Some x => if d_handle x =? handle then Ok (Some (i, p)) else search boxes handle (S i) r
      end
  end.

(** 248-315. *)
Definition remove_entry (s : dstate) (handle : N) : res efi_error (list dstate) :=
  let s1 := begin_update s in
  match d_arrays s1 (d_slice s1) with
  | None => Panic
  | Some a =>
      if N.of_nat (length a) <? d_size s1 then Panic
      else
        let size := N.to_nat (d_size s1) in
        let lastp := if d_size s1 =? 0 then 0 else nth (size - 1) a 0 in
        let* f := search (d_boxes s1) handle 0 (firstn size a) in
        match f with
        | None => Ok [s1; end_update s1]
        | Some (i, p) =>
            let s2 := with_boxes s1 (upd (d_boxes s1) p None) in
            let moved := if (i =? size - 1)%nat then a else set_nth i lastp a in
            let s3 := with_slot s2 moved in
            let s4 := with_slot s3 (set_nth (size - 1) 0 moved) in
            let s5 := with_size s4 (d_size s4 - 1) in
            Ok [s1; s2; s3; s4; s5; end_update s5]
        end
  end.
