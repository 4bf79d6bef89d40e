(** Pointers given to C.  sdk/patina/src/boot_services/c_ptr.rs. *)
From Verif Require Import Base.Prelude.
Local Open Scope N_scope.

(** The types that are pointers: raw ones (c_ptr.rs:110-130), references (134-160), boxes (164-176), the unit (180-193), options (196-204) and values not to be
    dropped (207-219) of these. *)
Inductive ty := Raw | Ref | Boxed | Unit | Opt (t : ty) | Manual (t : ty).
(** Their values.  A value not to be dropped is written as the value itself. *)
Inductive val := VPtr (n : N) | VUnit | VNone | VSome (v : val).
(** References and boxes are never null. *)
Fixpoint has_type (t : ty) (v : val) : Prop :=
  match t, v with
  | Raw, VPtr n => n < 2 ^ 64
  | Ref, VPtr n | Boxed, VPtr n => 0 < n < 2 ^ 64
  | Unit, VUnit => True
  | Opt _, VNone => True
  | Opt t, VSome v => has_type t v
  | Manual t, v => has_type t v
  | _, _ => False
  end.
(** The functions as_ptr of c_ptr.rs:110-213; also as_mut_ptr. *)
Fixpoint as_ptr (v : val) : N := match v with VPtr n => n | VUnit => 0 | VNone => 0 | VSome v => as_ptr v end.
(** What is freed when a value is dropped. *)
Fixpoint drop (t : ty) (v : val) : list N :=
  match t, v with
  | Boxed, VPtr n => [n]
  | Opt t, VSome v => drop t v
  | _, _ => []
  end.
(** c_ptr.rs:55-58 and 78-81: the address, and what is freed. *)
Definition into_ptr (t : ty) (v : val) : N * list N := (as_ptr v, drop (Manual t) v).
(** c_ptr.rs:61-63. *)
Definition metadata (v : val) : N := as_ptr v.
(** Types without a null value, of which Rust promises that an option of them has null for none. *)
Fixpoint niche (t : ty) : bool := match t with Ref | Boxed => true | Manual t => niche t | _ => false end.
(** c_ptr.rs:37-39: the eight bytes are taken for a value.  [Err]: no such value, or Rust promises nothing of how it is laid out, or it is longer. *)
Fixpoint original (t : ty) (n : N) : res unit val :=
  match t with
  | Raw => Ok (VPtr n)
  | Ref | Boxed => if n =? 0 then Err tt else Ok (VPtr n)
  | Unit => Ok VUnit
  | Opt t => if niche t then if n =? 0 then Ok VNone else let* v := original t n in Ok (VSome v) else Err tt
  | Manual t => original t n
  end.
(** c_ptr.rs:143, 156, 172, 217: what can be taken for a reference, *)
Fixpoint is_ref (t : ty) : bool := match t with Ref | Boxed => true | Manual t => is_ref t | _ => false end.
(** and c_ptr.rs:91-93 and 103-105, which do so. *)
Definition as_ref (v : val) : res unit N := if as_ptr v =? 0 then Panic else Ok (as_ptr v).
