From Verif Require Import Base.Prelude Align.Model.
Local Open Scope N_scope.

Lemma pow2_pos : forall k, 0 < 2 ^ k.
Proof. intros k. pose proof (N.pow_nonzero 2 k). lia. Qed.

Lemma pow2_div_mod_succ : forall k x, 0 < k -> x mod 2 ^ k = x mod 2 + 2 * ((x / 2) mod 2 ^ (k - 1)).
Proof.
  intros k x Hk. replace (2 ^ k) with (2 * 2 ^ (k - 1)).
  - rewrite N.mod_mul_r by (try lia; apply N.pow_nonzero; lia). reflexivity.
  - rewrite <- N.pow_succ_r'. f_equal. lia.
Qed.

(** Characterisation of powers of two by the classic bit trick. *)
Lemma is_power_of_two_spec : forall x, is_power_of_two x = true <-> exists k, x = 2 ^ k.
Proof.
  intros x. unfold is_power_of_two. rewrite andb_true_iff, N.ltb_lt, N.eqb_eq. split.
  - intros [Hpos Hland].
    exists (N.log2 x).
    destruct (N.eq_dec x (2 ^ N.log2 x)) as [E|NE]; [assumption|exfalso].
    assert (Hl : 2 ^ N.log2 x <= x < 2 ^ N.succ (N.log2 x)) by (apply N.log2_spec; lia).
    (* x - 1 has the same top bit, so the conjunction is not zero *)
    assert (Hlog : N.log2 (x - 1) = N.log2 x).
    { apply N.log2_unique; [lia|]. lia. }
    assert (T : N.testbit (N.land x (x - 1)) (N.log2 x) = true).
    { rewrite N.land_spec. rewrite N.bit_log2 by lia.
      rewrite <- Hlog. rewrite N.bit_log2; [reflexivity|].
      assert (0 < 2 ^ N.log2 x) by apply pow2_pos. lia. }
    rewrite Hland in T. rewrite N.bits_0 in T. discriminate.
  - intros [k ->]. split; [apply pow2_pos|].
    rewrite N.sub_1_r, <- N.ones_equiv, N.land_ones.
    apply N.mod_same. apply N.pow_nonzero. lia.
Qed.

Lemma land_mask_mod : forall x k, N.land x (2 ^ k - 1) = x mod 2 ^ k.
Proof. intros. rewrite N.sub_1_r, <- N.ones_equiv. apply N.land_ones. Qed.

Lemma lor_mask : forall x k, N.lor x (2 ^ k - 1) = (x / 2 ^ k) * 2 ^ k + (2 ^ k - 1).
Proof.
  intros x k.
  rewrite N.sub_1_r, <- N.ones_equiv.
  apply N.bits_inj. intros i. rewrite N.lor_spec.
  assert (Hlt : N.ones k < 2 ^ k).
  { rewrite N.ones_equiv. pose proof (pow2_pos k). lia. }
  rewrite <- N.shiftl_mul_pow2, <- N.shiftr_div_pow2.
  destruct (N.lt_ge_cases i k) as [L|G].
  - rewrite N.ones_spec_low by assumption. rewrite orb_true_r.
    rewrite N.add_nocarry_lxor.
    + rewrite N.lxor_spec, N.shiftl_spec_low, N.ones_spec_low by assumption. reflexivity.
    + apply N.bits_inj. intros j. rewrite N.land_spec, N.bits_0.
      destruct (N.lt_ge_cases j k).
      * rewrite N.shiftl_spec_low by assumption. reflexivity.
      * rewrite N.ones_spec_high by assumption. apply andb_false_r.
  - rewrite N.ones_spec_high by assumption. rewrite orb_false_r.
    rewrite N.add_nocarry_lxor.
    + rewrite N.lxor_spec, N.shiftl_spec_high', N.ones_spec_high by assumption.
      rewrite N.shiftr_spec'. rewrite xorb_false_r. f_equal. lia.
    + apply N.bits_inj. intros j. rewrite N.land_spec, N.bits_0.
      destruct (N.lt_ge_cases j k).
      * rewrite N.shiftl_spec_low by assumption. reflexivity.
      * rewrite N.ones_spec_high by assumption. apply andb_false_r.
Qed.

Lemma land_compl_mask : forall w x k, x < 2 ^ w -> k <= w ->
  N.land x (N.lxor (2 ^ w - 1) (2 ^ k - 1)) = (x / 2 ^ k) * 2 ^ k.
Proof.
  intros w x k Hx Hk.
  rewrite !N.sub_1_r, <- !N.ones_equiv.
  rewrite <- N.shiftl_mul_pow2, <- N.shiftr_div_pow2.
  apply N.bits_inj. intros i. rewrite N.land_spec, N.lxor_spec.
  destruct (N.lt_ge_cases i k) as [L|G].
  - rewrite N.shiftl_spec_low by assumption.
    rewrite !N.ones_spec_low by lia. apply andb_false_r.
  - rewrite N.shiftl_spec_high', N.shiftr_spec' by assumption.
    replace (i - k + k) with i by lia.
    rewrite (N.ones_spec_high k i) by assumption. rewrite xorb_false_r.
    destruct (N.lt_ge_cases i w) as [L2|G2].
    + rewrite N.ones_spec_low by assumption. apply andb_true_r.
    + rewrite N.ones_spec_high by assumption. rewrite andb_false_r.
      symmetry. destruct (N.eq_dec x 0) as [->|NZ]; [apply N.bits_0|].
      apply N.bits_above_log2. apply N.log2_lt_pow2; [lia|].
      eapply N.lt_le_trans; [exact Hx|]. apply N.pow_le_mono_r; lia.
Qed.

Definition least_multiple_from (a m x : N) : Prop :=
  (m mod a = 0 /\ x <= m) /\ forall m', m' mod a = 0 -> x <= m' -> m <= m'.
Definition greatest_multiple_upto (a m x : N) : Prop :=
  (m mod a = 0 /\ m <= x) /\ forall m', m' mod a = 0 -> m' <= x -> m' <= m.

Lemma mult_of : forall a m, 0 < a -> m mod a = 0 -> exists q, m = q * a.
Proof. intros a m Ha H. exists (m / a). pose proof (N.div_mod m a). lia. Qed.

Lemma ceil_least : forall a x, 0 < a -> x mod a <> 0 ->
  least_multiple_from a (x / a * a + a) x.
Proof.
  intros a x Ha Hx. split; [split|].
  - replace (x / a * a + a) with ((x / a + 1) * a) by lia. apply N.mod_mul. lia.
  - pose proof (N.div_mod x a). pose proof (N.mod_lt x a). lia.
  - intros m' Hm Hle. destruct (mult_of a m' Ha Hm) as [q ->].
    destruct (N.lt_ge_cases (x / a) q) as [L|G].
    + replace (x / a * a + a) with ((x / a + 1) * a) by lia. apply N.mul_le_mono_r. lia.
    + exfalso. assert (q * a <= x / a * a) by (apply N.mul_le_mono_r; lia).
      pose proof (N.div_mod x a). lia.
Qed.

Lemma self_least : forall a x, 0 < a -> x mod a = 0 -> least_multiple_from a x x.
Proof. intros a x Ha Hx. split; [split; [assumption|lia]|]. intros; assumption. Qed.

Lemma floor_greatest : forall a x, 0 < a -> greatest_multiple_upto a (x / a * a) x.
Proof.
  intros a x Ha. split; [split|].
  - apply N.mod_mul. lia.
  - pose proof (N.div_mod x a). lia.
  - intros m' Hm Hle. destruct (mult_of a m' Ha Hm) as [q ->].
    apply N.mul_le_mono_r. apply N.div_le_lower_bound; lia.
Qed.

Lemma align_up_eq : forall w x k, 
  align_up w x (2 ^ k) =
  if x mod 2 ^ k =? 0 then Ok x
  else if x / 2 ^ k * 2 ^ k + 2 ^ k <? 2 ^ w then Ok (x / 2 ^ k * 2 ^ k + 2 ^ k) else Err InvalidParameter.
Proof.
  intros w x k. unfold align_up.
  assert (P : is_power_of_two (2 ^ k) = true) by (apply is_power_of_two_spec; eauto).
  rewrite P. cbn [negb]. cbv zeta. rewrite land_mask_mod, lor_mask.
  replace (x / 2 ^ k * 2 ^ k + (2 ^ k - 1) + 1) with (x / 2 ^ k * 2 ^ k + 2 ^ k); [reflexivity|].
  pose proof (pow2_pos k). lia.
Qed.

Lemma align_down_eq : forall w x k, x < 2 ^ w -> k <= w ->
  align_down w x (2 ^ k) = Ok (x / 2 ^ k * 2 ^ k).
Proof.
  intros. unfold align_down.
  assert (P : is_power_of_two (2 ^ k) = true) by (apply is_power_of_two_spec; eauto).
  rewrite P. cbn [negb]. rewrite land_compl_mask by assumption. reflexivity.
Qed.

Lemma not_pow2 : forall a, (~ exists k, a = 2 ^ k) -> is_power_of_two a = false.
Proof.
  intros a H. destruct (is_power_of_two a) eqn:E; [|reflexivity].
  apply is_power_of_two_spec in E. contradiction.
Qed.

Lemma pow2_bound : forall w k, 2 ^ k < 2 ^ w -> k < w.
Proof. intros w k H. apply N.pow_lt_mono_r_iff in H; lia. Qed.
