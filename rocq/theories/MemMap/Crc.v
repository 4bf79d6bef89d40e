(** CRC-32 notices every change that stays within four consecutive bytes. *)
From Verif Require Import Base.Prelude Base.Bytes Gcd.Model Alloc.Model MemMap.Model MemMap.Spec.
Local Open Scope N_scope.

Definition bit_sum (l : list bool) : N := fold_right (fun b r => N.b2n b + 2 * r) 0 l.
Definition run := fold_left crc_bit.
Fixpoint zeros (n : nat) : list bool := match n with O => [] | S k => false :: zeros k end.
Fixpoint diff (a b : list bool) : list bool := match a, b with x :: a', y :: b' => xorb x y :: diff a' b' | _, _ => [] end.

Lemma odd_lxor : forall a b, N.odd (N.lxor a b) = xorb (N.odd a) (N.odd b).
Proof. intros. rewrite <- !N.bit0_odd. apply N.lxor_spec. Qed.
Lemma div2_lxor : forall a b, N.div2 (N.lxor a b) = N.lxor (N.div2 a) (N.div2 b).
Proof. intros. rewrite !N.div2_spec. apply N.shiftr_lxor. Qed.
Lemma b2n_xorb : forall p q, N.b2n (xorb p q) = N.lxor (N.b2n p) (N.b2n q).
Proof. intros [] []; reflexivity. Qed.

Lemma lxor_swap : forall a b c d, N.lxor (N.lxor a b) (N.lxor c d) = N.lxor (N.lxor a c) (N.lxor b d).
Proof. intros. rewrite !N.lxor_assoc. f_equal. rewrite <- !N.lxor_assoc. f_equal. apply N.lxor_comm. Qed.

Lemma crc_bit_linear : forall a b p q, crc_bit (N.lxor a b) (xorb p q) = N.lxor (crc_bit a p) (crc_bit b q).
Proof.
  intros a b p q. unfold crc_bit. rewrite b2n_xorb, lxor_swap. set (u := N.lxor a (N.b2n p)). set (v := N.lxor b (N.b2n q)).
  rewrite odd_lxor, div2_lxor. destruct (N.odd u), (N.odd v); cbn [xorb].
  - rewrite lxor_swap, N.lxor_nilpotent, N.lxor_0_r. reflexivity.
  - rewrite !N.lxor_assoc. f_equal. apply N.lxor_comm.
  - apply N.lxor_assoc.
  - reflexivity.
Qed.

Lemma run_linear : forall a b s t, length a = length b -> run (diff a b) (N.lxor s t) = N.lxor (run a s) (run b t).
Proof.
  induction a as [|x a IH]; intros [|y b] s t E; try discriminate; [reflexivity|]. cbn [diff run fold_left]. rewrite crc_bit_linear.
  apply IH. now injection E.
Qed.

Lemma lt_bits : forall n a, a < 2 ^ n <-> forall i, n <= i -> N.testbit a i = false.
Proof.
  intros n a. split.
  - intros H i Hi. destruct (N.eq_dec a 0) as [->|Z]; [apply N.bits_0|]. apply N.bits_above_log2. apply N.log2_lt_pow2 in H; lia.
  - intros H. destruct (N.eq_dec a 0) as [->|Z]; [apply N.neq_0_lt_0, N.pow_nonzero; discriminate|]. apply N.log2_lt_pow2; [lia|].
    destruct (N.lt_ge_cases (N.log2 a) n) as [|G]; [assumption|]. specialize (H _ G). rewrite N.bit_log2 in H by assumption. discriminate.
Qed.
Lemma lxor_lt : forall n a b, a < 2 ^ n -> b < 2 ^ n -> N.lxor a b < 2 ^ n.
Proof.
  intros n a b Ha Hb. apply lt_bits. intros i Hi. rewrite N.lxor_spec, (proj1 (lt_bits n a) Ha i Hi), (proj1 (lt_bits n b) Hb i Hi). reflexivity.
Qed.
Lemma div2_lt : forall a, a < 2 ^ 32 -> N.div2 a < 2 ^ 31.
Proof. intros a H. rewrite N.div2_div. apply N.div_lt_upper_bound; [discriminate|]. exact H. Qed.
Lemma crc_bit_lt : forall s b, s < 2 ^ 32 -> crc_bit s b < 2 ^ 32.
Proof.
  intros s b H. unfold crc_bit. assert (T : N.lxor s (N.b2n b) < 2 ^ 32) by (apply lxor_lt; [exact H|destruct b; reflexivity]).
  apply div2_lt in T. assert (T2 : N.div2 (N.lxor s (N.b2n b)) < 2 ^ 32) by (eapply N.lt_trans; [exact T|reflexivity]).
  destruct (N.odd _); [apply lxor_lt; [exact T2|reflexivity]|exact T2].
Qed.
Lemma crc_zero : forall d, d < 2 ^ 32 -> crc_bit d false = 0 -> d = 0.
Proof.
  intros d H E. unfold crc_bit in E. cbn [N.b2n] in E. rewrite N.lxor_0_r in E. destruct (N.odd d) eqn:O.
  - apply N.lxor_eq in E. apply div2_lt in H. rewrite E in H. vm_compute in H. discriminate.
  - rewrite N.div2_div in E. pose proof (N.div_mod d 2 ltac:(discriminate)) as D. rewrite E in D.
    rewrite <- N.bit0_odd in O. rewrite N.bit0_eqb in O. apply N.eqb_neq in O. pose proof (N.mod_lt d 2 ltac:(discriminate)). lia.
Qed.

Lemma run_zero : forall n d, d < 2 ^ 32 -> run (zeros n) d = 0 -> d = 0.
Proof.
  induction n as [|n IH]; intros d H E; cbn [zeros run fold_left] in E; [exact E|].
  apply crc_zero; [exact H|]. apply IH; [now apply crc_bit_lt|exact E].
Qed.

Lemma even_bit : forall w, crc_bit (2 * w) false = w.
Proof.
  intros w. unfold crc_bit. cbn [N.b2n]. rewrite N.lxor_0_r. rewrite N.odd_mul, andb_false_l. rewrite N.div2_div, N.mul_comm, N.div_mul by discriminate. reflexivity.
Qed.
Lemma b2n_plus : forall b w, N.b2n b + 2 * w = N.lxor (N.b2n b) (2 * w).
Proof.
  intros b w. apply N.add_nocarry_lxor. destruct b; cbn [N.b2n]; [|apply N.land_0_l].
  apply N.bits_inj. intros i. rewrite N.land_spec, N.bits_0. destruct (N.eq_dec i 0) as [->|Z]; [rewrite N.testbit_even_0; apply andb_false_r|].
  destruct i; [contradiction|]. reflexivity.
Qed.

(** Feeding bits is feeding zeros to the register with the bits in it. *)
Lemma feed : forall e d, run e d = run (zeros (length e)) (N.lxor d (bit_sum e)).
Proof.
  induction e as [|b e IH]; intros d; cbn [length zeros run fold_left bit_sum fold_right]; [now rewrite N.lxor_0_r|].
  change (fold_left crc_bit) with run. rewrite IH. f_equal. fold (bit_sum e).
  rewrite b2n_plus, <- N.lxor_assoc. rewrite <- (xorb_false_r false), crc_bit_linear, even_bit. f_equal.
  unfold crc_bit. cbn [N.b2n]. rewrite N.lxor_0_r. reflexivity.
Qed.
Lemma bit_sum_lt : forall e, bit_sum e < 2 ^ N.of_nat (length e).
Proof.
  induction e as [|b e IH]; [reflexivity|]. cbn [length bit_sum fold_right]. fold (bit_sum e). rewrite Nat2N.inj_succ, N.pow_succ_r'. destruct b; cbn [N.b2n]; lia.
Qed.
Lemma bit_sum_zero : forall e, bit_sum e = 0 -> e = zeros (length e).
Proof.
  induction e as [|b e IH]; intros H; [reflexivity|]. cbn [length zeros bit_sum fold_right] in *. fold (bit_sum e) in H. destruct b; cbn [N.b2n] in H; [lia|].
  f_equal. apply IH. lia.
Qed.
Lemma diff_same : forall a, diff a a = zeros (length a).
Proof. induction a as [|x a IH]; [reflexivity|]. cbn [diff length zeros]. rewrite xorb_nilpotent, IH. reflexivity. Qed.
Lemma diff_zero : forall a b, length a = length b -> diff a b = zeros (length (diff a b)) -> a = b.
Proof.
  induction a as [|x a IH]; intros [|y b] E H; try discriminate; [reflexivity|]. cbn [diff length zeros] in H. injection E as E. injection H as H1 H2.
  f_equal; [destruct x, y; auto; discriminate|]. now apply IH.
Qed.
Lemma diff_length : forall a b, length a = length b -> length (diff a b) = length a.
Proof. induction a as [|x a IH]; intros [|y b] E; try discriminate; [reflexivity|]. cbn [diff length]. f_equal. apply IH. now injection E. Qed.
Lemma run_lt : forall e d, d < 2 ^ 32 -> run e d < 2 ^ 32.
Proof. induction e as [|b e IH]; intros d H; [exact H|]. cbn [run fold_left]. apply IH. now apply crc_bit_lt. Qed.

Lemma window_noticed : forall u a b v s, length a = length b -> (length a <= 32)%nat -> run (u ++ a ++ v) s = run (u ++ b ++ v) s -> s < 2 ^ 32 -> a = b.
Proof.
  intros u a b v s E LE H SL. unfold run in H. rewrite !fold_left_app in H. change (fold_left crc_bit) with run in H. set (t := run u s) in *.
  assert (Z : run (diff v v) (N.lxor (run a t) (run b t)) = 0) by (rewrite run_linear, H by reflexivity; apply N.lxor_nilpotent).
  assert (TL : t < 2 ^ 32) by (now apply run_lt).
  rewrite diff_same in Z. apply run_zero in Z; [|apply lxor_lt; now apply run_lt].
  rewrite <- (run_linear a b t t E), N.lxor_nilpotent in Z. rewrite feed, N.lxor_0_l in Z.
  apply run_zero in Z.
  - apply bit_sum_zero in Z. apply diff_zero; assumption.
  - eapply N.lt_le_trans; [apply bit_sum_lt|]. rewrite diff_length by assumption. apply N.pow_le_mono_r; lia.
Qed.

Lemma byte_bits_inj : forall x y, x < 256 -> y < 256 -> byte_bits x = byte_bits y -> x = y.
Proof.
  intros x y Hx Hy E. unfold byte_bits in E. cbn [map] in E. apply N.bits_inj. intros i. destruct (N.lt_ge_cases i 8) as [L|G].
  - assert (i = 0 \/ i = 1 \/ i = 2 \/ i = 3 \/ i = 4 \/ i = 5 \/ i = 6 \/ i = 7) by lia. inversion E. intuition (subst; assumption).
  - rewrite (proj1 (lt_bits 8 x) Hx i G), (proj1 (lt_bits 8 y) Hy i G). reflexivity.
Qed.
Lemma app_split_len : forall A (a b c d : list A), length a = length b -> a ++ c = b ++ d -> a = b /\ c = d.
Proof.
  induction a as [|x a IH]; intros [|y b] c d E H; try discriminate; [auto|]. injection E as E. injection H as H1 H2. destruct (IH b c d E H2) as (-> & ->). subst. auto.
Qed.
Lemma bits_inj : forall a b, bytes_ok a -> bytes_ok b -> length a = length b -> concat (map byte_bits a) = concat (map byte_bits b) -> a = b.
Proof.
  induction a as [|x a IH]; intros [|y b] Ha Hb E H; try discriminate; [reflexivity|]. inversion Ha; inversion Hb; subst. injection E as E. cbn [map concat] in H.
  pose proof (app_split_len _ (byte_bits x) (byte_bits y) _ _ eq_refl H) as X.
  destruct X as (X1 & X2). f_equal; [now apply byte_bits_inj|now apply IH].
Qed.
Lemma bits_length : forall a, length (concat (map byte_bits a)) = (8 * length a)%nat.
Proof. induction a as [|x a IH]; [reflexivity|]. cbn [map concat length]. rewrite app_length, IH. cbn [byte_bits map length]. lia. Qed.

(** Two strings of bytes that differ within four consecutive bytes have different checksums. *)
Theorem crc32_small_change : forall u v, bytes_ok u -> bytes_ok v -> small_change u v -> crc32 u <> crc32 v.
Proof.
  intros u v Hu Hv (p & w1 & w2 & q & -> & -> & NE & EL & LE) H. apply NE. unfold crc32 in H.
  apply (f_equal (fun z => N.lxor z 0xFFFFFFFF)) in H. rewrite !N.lxor_assoc, !N.lxor_nilpotent, !N.lxor_0_r in H.
  rewrite !map_app, !concat_app in H. apply Forall_app in Hu, Hv. destruct Hu as (_ & Hu), Hv as (_ & Hv). apply Forall_app in Hu, Hv.
  apply bits_inj; try tauto; try assumption.
  eapply window_noticed; [| |exact H|reflexivity]; rewrite !bits_length; lia.
Qed.
Print Assumptions crc32_small_change.

(** The standard check value. *)
Example crc32_check : crc32 [0x31; 0x32; 0x33; 0x34; 0x35; 0x36; 0x37; 0x38; 0x39] = 0xCBF43926.
Proof. vm_compute. reflexivity. Qed.
Example crc32_small_change_applies : crc32 [1; 2; 3] <> crc32 [1; 7; 3].
Proof. apply crc32_small_change; try (repeat constructor; reflexivity). exists [1], [2], [7], [3]. repeat split; try discriminate. cbn; lia. Qed.
