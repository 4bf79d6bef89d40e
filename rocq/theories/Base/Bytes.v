(** Little-endian integers as byte lists, shared by the byte-level models. *)
From Verif Require Import Base.Prelude.
Open Scope N_scope.

(** [w] bytes of [v], least significant first. *)
Fixpoint le_bytes (w : nat) (v : N) : list N :=
  match w with O => [] | S w' => v mod 256 :: le_bytes w' (v / 256) end.

(** The value of a little-endian byte string. *)
Fixpoint le_val (bs : list N) : N :=
  match bs with [] => 0 | b :: r => b + 256 * le_val r end.

Definition bytes_ok (l : list N) : Prop := Forall (fun b => b < 256) l.

(** [w] bytes of [l] from offset [o] on, as an integer. *)
Definition le_at (l : list N) (o w : nat) : N := le_val (firstn w (skipn o l)).

Lemma le_bytes_length w : forall v, length (le_bytes w v) = w.
Proof. induction w; intros; cbn [le_bytes length]; auto. Qed.

Lemma le_bytes_ok w : forall v, bytes_ok (le_bytes w v).
Proof.
  induction w; intros; cbn [le_bytes]; constructor; auto.
  - apply N.mod_lt. lia.
  - apply IHw.
Qed.

Lemma le_val_bytes w : forall v, v < 256 ^ N.of_nat w -> le_val (le_bytes w v) = v.
Proof.
  induction w as [|w IH]; intros v H.
  - cbn in *. lia.
  - cbn [le_bytes le_val]. rewrite IH.
    + rewrite (N.add_comm (v mod 256)). symmetry. apply N.div_mod'.
    + apply N.div_lt_upper_bound; [lia|]. rewrite Nat2N.inj_succ, N.pow_succ_r' in H. exact H.
Qed.

Lemma le_val_bytes_mod w : forall v, le_val (le_bytes w v) = v mod 256 ^ N.of_nat w.
Proof.
  induction w as [|w IH]; intros v.
  - cbn. now rewrite N.mod_1_r.
  - cbn [le_bytes le_val]. rewrite IH. rewrite Nat2N.inj_succ, N.pow_succ_r'.
    rewrite N.mod_mul_r; try lia; auto.
Qed.

Lemma le_val_bound l : bytes_ok l -> le_val l < 256 ^ N.of_nat (length l).
Proof.
  induction 1 as [|b l Hb H IH].
  - cbn. lia.
  - cbn [le_val length]. rewrite Nat2N.inj_succ, N.pow_succ_r'. 
    set (P := 256 ^ N.of_nat (length l)) in *. clearbody P. lia.
Qed.

Lemma le_bytes_val l : bytes_ok l -> le_bytes (length l) (le_val l) = l.
Proof.
  induction 1 as [|b l Hb H IH]; [reflexivity|]. cbn [length le_bytes le_val].
  rewrite (N.add_comm b), (N.mul_comm 256), N.add_comm.
  rewrite N.mod_add, N.mod_small by lia. rewrite N.div_add, N.div_small by lia.
  cbn [N.add]. now rewrite IH.
Qed.

Lemma firstn_app_exact {A} (a b : list A) : firstn (length a) (a ++ b) = a.
Proof. rewrite firstn_app, firstn_all, Nat.sub_diag. cbn. apply app_nil_r. Qed.

Lemma skipn_app_exact {A} (a b : list A) : skipn (length a) (a ++ b) = b.
Proof. rewrite skipn_app, skipn_all, Nat.sub_diag. reflexivity. Qed.

Lemma le_at_app a v w b : v < 256 ^ N.of_nat w -> le_at (a ++ le_bytes w v ++ b) (length a) w = v.
Proof.
  intros H. unfold le_at. rewrite skipn_app_exact.
  rewrite <- (le_bytes_length w v) at 1. rewrite firstn_app_exact. now apply le_val_bytes.
Qed.

Lemma le_at_app' a v w b o : o = length a -> v < 256 ^ N.of_nat w -> le_at (a ++ le_bytes w v ++ b) o w = v.
Proof. intros -> H. now apply le_at_app. Qed.

Lemma bytes_ok_app a b : bytes_ok (a ++ b) <-> bytes_ok a /\ bytes_ok b.
Proof. apply Forall_app. Qed.

Lemma bytes_ok_repeat0 n : bytes_ok (repeat 0 n).
Proof. apply Forall_forall. intros x I. apply repeat_spec in I. subst. lia. Qed.

Lemma nth_skipn {A} (d : A) : forall n l k, nth k (skipn n l) d = nth (n + k) l d.
Proof. induction n; intros l k; [reflexivity|]. destruct l; [destruct k; reflexivity|]. cbn. auto. Qed.

Lemma nth_firstn {A} (d : A) : forall n l k, (k < n)%nat -> nth k (firstn n l) d = nth k l d.
Proof. induction n; intros l k H; [lia|]. destruct l; [reflexivity|]. destruct k; [reflexivity|]. cbn. apply IHn. lia. Qed.
