(** C25: alignment helpers.  Statements use only arithmetic ([mod], [<=], [2^k]). *)
From Verif Require Import Base.Prelude Align.Model Align.Proofs Align.Main.
Local Open Scope N_scope.

(** [align_up] returns the least multiple not below the value; it fails exactly when that multiple does
    not fit in the word, and rejects every alignment that is not a power of two. *)
Theorem align_up_correct : forall w x a,
  x < 2 ^ w -> a < 2 ^ w ->
  match align_up w x a with
  | Ok m => (exists k, a = 2 ^ k) /\ m < 2 ^ w /\ m mod a = 0 /\ x <= m /\
            (forall m', m' mod a = 0 -> x <= m' -> m <= m')
  | Err e => e = InvalidParameter /\
             ((~ exists k, a = 2 ^ k) \/ (forall m', m' mod a = 0 -> x <= m' -> 2 ^ w <= m'))
  | Panic => False
  end.
Proof. exact align_up_main. Qed.
Print Assumptions align_up_correct.

Theorem align_down_correct : forall w x a,
  x < 2 ^ w -> a < 2 ^ w ->
  match align_down w x a with
  | Ok m => (exists k, a = 2 ^ k) /\ m mod a = 0 /\ m <= x /\
            (forall m', m' mod a = 0 -> m' <= x -> m' <= m)
  | Err e => e = InvalidParameter /\ ~ exists k, a = 2 ^ k
  | Panic => False
  end.
Proof. exact align_down_main. Qed.
Print Assumptions align_down_correct.

(** For a range that does not wrap, [align_range] returns the smallest aligned range covering it. *)
Theorem align_range_correct : forall w b l a,
  b + l < 2 ^ w -> a < 2 ^ w ->
  match align_range w b l a with
  | Ok (b', l') => (exists k, a = 2 ^ k) /\ b' mod a = 0 /\ (b' + l') mod a = 0 /\
        b' <= b /\ b + l <= b' + l' /\ b' + l' < 2 ^ w /\
        (forall b2 l2, b2 mod a = 0 -> (b2 + l2) mod a = 0 -> b2 <= b -> b + l <= b2 + l2 ->
             b2 <= b' /\ b' + l' <= b2 + l2)
  | Err e => e = InvalidParameter /\
             ((~ exists k, a = 2 ^ k) \/ (forall m', m' mod a = 0 -> b + l <= m' -> 2 ^ w <= m'))
  | Panic => False
  end.
Proof. exact align_range_main. Qed.
Print Assumptions align_range_correct.

(** Finding: [align_range] overflows (debug panic) when [base + length] does not fit. *)
Theorem align_range_total_refuted : exists b l a,
  b < 2 ^ 64 /\ l < 2 ^ 64 /\ a < 2 ^ 64 /\ align_range 64 b l a = Panic.
Proof. exists (2 ^ 64 - 1), 1, 4096. vm_compute. repeat split. Qed.
Print Assumptions align_range_total_refuted.

Theorem is_power_of_two_correct : forall x, is_power_of_two x = true <-> exists k, x = 2 ^ k.
Proof. exact is_power_of_two_spec. Qed.
Print Assumptions is_power_of_two_correct.

Example align_up_ex1 : align_up 64 4097 4096 = Ok 8192. Proof. reflexivity. Qed.
Example align_up_ex2 : align_up 64 (2 ^ 64 - 1) 4096 = Err InvalidParameter. Proof. reflexivity. Qed.
Example align_down_ex : align_down 64 8191 4096 = Ok 4096. Proof. reflexivity. Qed.
Example align_range_ex : align_range 64 4097 10 4096 = Ok (4096, 4096). Proof. reflexivity. Qed.
