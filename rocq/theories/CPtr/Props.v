(** Pointers given to C. *)
From Verif Require Import Base.Prelude CPtr.Model CPtr.Spec.
From Coq Require Import Lia ZifyBool ZifyNat ZifyN.
Local Open Scope N_scope.

Lemma niche_pos : forall t v, niche t = true -> has_type t v -> 0 < as_ptr v.
Proof. induction t as [| | | |t IH|t IH]; intros v H V; cbn [niche] in H; try discriminate; [destruct v; cbn [has_type as_ptr] in *; (lia || contradiction) | destruct v; cbn [has_type as_ptr] in *; (lia || contradiction) | exact (IH v H V)]. Qed.
Lemma niche_null : forall t, niche t = false -> nullable t.
Proof.
  induction t as [| | | |t IH|t IH]; intros H; cbn [niche] in H; try discriminate.
  - exists (VPtr 0). split; [cbn [has_type]; lia | reflexivity].
  - exists VUnit. split; [exact I | reflexivity].
  - exists VNone. split; [exact I | reflexivity].
  - destruct (IH H) as (v & V & A). exists v. split; [exact V | exact A].
Qed.
(** C96: a type is without null exactly if it is a reference or a box, under any number of "not to be dropped". *)
Theorem c96_nullable : forall t, nullable t <-> niche t = false.
Proof. intros t. split; [|apply niche_null]. intros (v & V & A). destruct (niche t) eqn:E; [|reflexivity]. pose proof (niche_pos t v E V). lia. Qed.
(** C96: wherever an address tells the pointer it came from, the pointer is got back from it. *)
Theorem c96_round : forall t, recoverable t -> forall v, has_type t v -> original t (metadata v) = Ok v.
Proof.
  unfold metadata. induction t as [| | | |t IH|t IH]; intros (d & D) v V; cbn [original].
  - destruct v; try contradiction. reflexivity.
  - destruct v; try contradiction. cbn [has_type as_ptr] in *. destruct (n =? 0) eqn:E; [lia | reflexivity].
  - destruct v; try contradiction. cbn [has_type as_ptr] in *. destruct (n =? 0) eqn:E; [lia | reflexivity].
  - destruct v; try contradiction. reflexivity.
  - destruct (niche t) eqn:N.
    + destruct v as [n| | |v]; try contradiction; [reflexivity|]. cbn [as_ptr]. pose proof (niche_pos t v N V) as P. destruct (as_ptr v =? 0) eqn:E; [lia|]. rewrite IH; [reflexivity | | exact V].
      exists (fun n => match d n with VSome x => x | x => x end). intros x X. pose proof (D (VSome x) X) as Q. cbn [as_ptr] in Q. rewrite Q. reflexivity.
    + exfalso. destruct (niche_null t N) as (x & X & A). pose proof (D VNone I) as Q. pose proof (D (VSome x) X) as R. cbn [as_ptr] in Q, R. rewrite A in R. congruence.
  - apply IH; [exists d; exact D | exact V].
Qed.
(** C96: and an address tells the pointer for raw pointers, references, boxes and the unit, for options of types without null, and for what is not to be dropped. *)
Theorem c96_recoverable : recoverable Raw /\ recoverable Ref /\ recoverable Boxed /\ recoverable Unit /\ (forall t, recoverable t -> ~ nullable t -> recoverable (Opt t)) /\ (forall t, recoverable t -> recoverable (Manual t)).
Proof.
  repeat split.
  - exists VPtr. intros v V. destruct v; try contradiction. reflexivity.
  - exists VPtr. intros v V. destruct v; try contradiction. reflexivity.
  - exists VPtr. intros v V. destruct v; try contradiction. reflexivity.
  - exists (fun _ => VUnit). intros v V. destruct v; try contradiction. reflexivity.
  - intros t (d & D) N. exists (fun n => if n =? 0 then VNone else VSome (d n)). intros v V. destruct v as [n| | |v]; try contradiction; [reflexivity|]. cbn [as_ptr]. destruct (as_ptr v =? 0) eqn:E; [|rewrite (D v V); reflexivity]. exfalso. apply N. exists v. split; [exact V | lia].
  - intros t (d & D). exists d. exact D.
Qed.
(** Not so: that what is kept of a pointer is enough to rebuild it.  Options of raw pointers, of the unit or of options have two values with one address, so that nothing
    could rebuild them; all are pointers that may be given. *)
Theorem c96_option_refuted : forall t, nullable t -> ~ recoverable (Opt t) /\ original (Opt t) 0 = Err tt.
Proof.
  intros t N. split.
  - intros (d & D). destruct N as (x & X & A). pose proof (D VNone I) as Q. pose proof (D (VSome x) X) as R. cbn [as_ptr] in Q, R. rewrite A in R. congruence.
  - apply c96_nullable in N. cbn [original]. rewrite N. reflexivity.
Qed.
(** C96: a pointer handed over frees nothing; got back and dropped, what it owned is freed, once. *)
Theorem c96_owned : forall t v, recoverable t -> has_type t v -> exists n v', into_ptr t v = (n, []) /\ original t n = Ok v' /\ drop t v' = drop t v.
Proof. intros t v R V. exists (as_ptr v), v. split; [reflexivity|]. split; [exact (c96_round t R v V) | reflexivity]. Qed.
(** C96: what owns a box frees the address handed over, which is not null; and nothing else frees anything. *)
Theorem c96_freed : forall t v, has_type t v -> (owns t v -> drop t v = [as_ptr v] /\ as_ptr v <> 0) /\ (~ owns t v -> drop t v = []).
Proof.
  induction t as [| | | |t IH|t IH]; intros v V; destruct v as [m| | |v]; cbn [drop has_type as_ptr] in *; try contradiction; (split; [intros O | intros O; try reflexivity]); try (inversion O; fail).
  - split; [reflexivity | lia].
  - destruct O. constructor.
  - inversion O; subst. apply (IH v V). assumption.
  - apply (IH v V). intros K. apply O. constructor. exact K.
Qed.
(** C96: what may be taken for a reference can be: it is never null. *)
Theorem c96_as_ref : forall t v, is_ref t = true -> has_type t v -> as_ref v = Ok (as_ptr v) /\ as_ptr v <> 0.
Proof.
  intros t v R V. assert (N : niche t = true) by (clear V; induction t; cbn [is_ref niche] in *; (exact R || discriminate || auto)). pose proof (niche_pos t v N V). unfold as_ref. destruct (as_ptr v =? 0) eqn:E; [lia|]. split; [reflexivity | lia].
Qed.
(** Not so: that a pointer is got back once only.  What is kept may be copied, and each copy gives back the box. *)
Theorem c96_twice_refuted : forall n, 0 < n < 2 ^ 64 -> let kept := metadata (VPtr n) in exists a b, original Boxed kept = Ok a /\ original Boxed kept = Ok b /\ drop Boxed a ++ drop Boxed b = [n; n].
Proof. intros n H kept. exists (VPtr n), (VPtr n). unfold kept, metadata. cbn [original as_ptr]. destruct (n =? 0) eqn:E; [lia|]. repeat split. Qed.

(** ** Cases *)

Example demo_round : recoverable (Opt (Manual Boxed)) /\ has_type (Opt (Manual Boxed)) (VSome (VPtr 4096)) /\ original (Opt (Manual Boxed)) 4096 = Ok (VSome (VPtr 4096)) /\ original (Opt (Manual Boxed)) 0 = Ok VNone.
Proof.
  destruct c96_recoverable as (_ & _ & B & _ & O & M). split; [apply O; [apply M; exact B|]; rewrite c96_nullable; discriminate|]. split; [cbn [has_type]; lia|]. split; reflexivity.
Qed.
Example demo_nullable : nullable Raw /\ nullable (Opt Ref).
Proof. split; apply c96_nullable; reflexivity. Qed.

Print Assumptions c96_nullable.
Print Assumptions c96_round.
Print Assumptions c96_recoverable.
Print Assumptions c96_option_refuted.
Print Assumptions c96_owned.
Print Assumptions c96_freed.
Print Assumptions c96_as_ref.
Print Assumptions c96_twice_refuted.
