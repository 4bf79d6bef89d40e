From Verif Require Import Base.Prelude Align.Model Align.Proofs.
Local Open Scope N_scope.

Lemma align_up_main : forall w x a,
  x < 2 ^ w -> a < 2 ^ w ->
  match align_up w x a with
  | Ok m => (exists k, a = 2 ^ k) /\ m < 2 ^ w /\ m mod a = 0 /\ x <= m /\
            (forall m', m' mod a = 0 -> x <= m' -> m <= m')
  | Err e => e = InvalidParameter /\
             ((~ exists k, a = 2 ^ k) \/ (forall m', m' mod a = 0 -> x <= m' -> 2 ^ w <= m'))
  | Panic => False
  end.
Proof.
  intros w x a Hx Ha.
  destruct (is_power_of_two a) eqn:E.
  2: { unfold align_up. rewrite E. cbn. split; [reflexivity|]. left. intros H.
       apply is_power_of_two_spec in H. congruence. }
  apply is_power_of_two_spec in E. destruct E as [k ->].
  rewrite align_up_eq. pose proof (pow2_pos k) as Hk.
  destruct (x mod 2 ^ k =? 0) eqn:M.
  - apply N.eqb_eq in M. destruct (self_least _ _ Hk M) as [[H1 H2] H3].
    repeat split; eauto.
  - apply N.eqb_neq in M. destruct (ceil_least _ _ Hk M) as [[H1 H2] H3].
    destruct (_ <? _) eqn:L.
    + apply N.ltb_lt in L. repeat split; eauto.
    + apply N.ltb_ge in L. split; [reflexivity|]. right. intros m' Hm Hle.
      specialize (H3 m' Hm Hle). lia.
Qed.

Lemma align_down_main : forall w x a,
  x < 2 ^ w -> a < 2 ^ w ->
  match align_down w x a with
  | Ok m => (exists k, a = 2 ^ k) /\ m mod a = 0 /\ m <= x /\
            (forall m', m' mod a = 0 -> m' <= x -> m' <= m)
  | Err e => e = InvalidParameter /\ ~ exists k, a = 2 ^ k
  | Panic => False
  end.
Proof.
  intros w x a Hx Ha.
  destruct (is_power_of_two a) eqn:E.
  2: { unfold align_down. rewrite E. cbn. split; [reflexivity|]. intros H.
       apply is_power_of_two_spec in H. congruence. }
  apply is_power_of_two_spec in E. destruct E as [k ->].
  rewrite align_down_eq by (try assumption; apply pow2_bound in Ha; lia).
  destruct (floor_greatest (2 ^ k) x (pow2_pos k)) as [[H1 H2] H3].
  repeat split; eauto.
Qed.

Lemma align_range_main : forall w b l a,
  b + l < 2 ^ w -> a < 2 ^ w ->
  match align_range w b l a with
  | Ok (b', l') => (exists k, a = 2 ^ k) /\ b' mod a = 0 /\ (b' + l') mod a = 0 /\
        b' <= b /\ b + l <= b' + l' /\ b' + l' < 2 ^ w /\
        (forall b2 l2, b2 mod a = 0 -> (b2 + l2) mod a = 0 -> b2 <= b -> b + l <= b2 + l2 ->
             b2 <= b' /\ b' + l' <= b2 + l2)
  | Err e => e = InvalidParameter /\
             ((~ exists k, a = 2 ^ k) \/ (forall m', m' mod a = 0 -> b + l <= m' -> 2 ^ w <= m'))
  | Panic => False
  end.
Proof.
  intros w b l a Hbl Ha.
  assert (Hb : b < 2 ^ w) by lia.
  pose proof (align_up_main w (b + l) a Hbl Ha) as HU.
  pose proof (align_down_main w b a Hb Ha) as HD.
  unfold align_range.
  destruct (is_power_of_two a) eqn:E; cbn [negb].
  2: { split; [reflexivity|]. left. intros H. apply is_power_of_two_spec in H. congruence. }
  destruct (2 ^ w <=? b + l) eqn:O; [apply N.leb_le in O; lia|].
  destruct (align_up w (b + l) a) as [m|e|]; [|exact HU|contradiction].
  destruct HU as (Hk & Hmw & Hm0 & Hmle & Hleast).
  destruct (align_down w b a) as [d|e|].
  - destruct HD as (_ & Hd0 & Hdle & Hgreat).
    assert (EQ : d + (m - d) = m) by lia. rewrite EQ.
    repeat split; auto; try lia.
  - destruct HD as [_ HD]. contradiction.
  - contradiction.
Qed.
