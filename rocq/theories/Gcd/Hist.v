(** Histories of the memory GCD. *)
From Verif Require Import Base.Prelude Align.Model Align.Proofs Align.Main Gcd.Blocks Gcd.Model Gcd.Spec Gcd.BlockProofs Gcd.Proofs Gcd.AllocProofs Gcd.Main.
Local Open Scope N_scope.

(** What every non-panicking step does, whether or not the map exists. *)
Lemma step_frame : forall g o r g', gcd_inv g -> op_wf o -> gcd_step g o = (r, g') -> r <> Panic ->
  gcd_inv g' /\ g_max g' = g_max g /\ g_dbg g' = g_dbg g /\ g_nodesz g' = g_nodesz g /\ (map_ok g -> map_ok g').
Proof.
  intros g o r g' (Hmax & [HM|HA]) Hw H Hp.
  - pose proof (gcd_step_map g o r g' HM Hmax Hw H) as P.
    assert (Q : map_ok g' /\ same_frame_map (lock_memory_space g) (lock_memory_space g')).
    { destruct r as [v|e|]; [| |congruence]; cbn [step_post] in P.
      - assert (G : (is_free o = true /\ g_locked g = true /\ g' = g) \/
                    (same_frame g g' /\ map_ok g' /\
                      exists base len s s', call_range o v = Some (base, len) /\ 0 < len /\ base + len <= g_max g /\
                      call_effect o s s' /\ range_changed (g_blocks g) (g_blocks g') base len s s') ->
                    map_ok g' /\ same_frame_map (lock_memory_space g) (lock_memory_space g')).
        { intros [(_ & _ & ->)|(F & M & _)].
          - split; [exact HM|]. unfold same_frame_map; auto.
          - split; [exact M|]. apply same_frame_fields in F. unfold same_frame_map in *. cbn in *. intuition auto. }
        destruct o; try (apply G; exact P).
        + subst g'. split; [exact HM|]. unfold same_frame_map; cbn; auto.
        + subst g'. split; [exact HM|]. unfold same_frame_map; cbn; auto.
      - destruct P as [->|(_ & _ & P)].
        + split; [exact HM|]. unfold same_frame_map; auto.
        + destruct P as (b & l & s & _ & _ & _ & _ & _ & F & M & _). split; [exact M|].
          apply same_frame_fields in F. unfold same_frame_map in *. cbn in *. intuition auto. }
    destruct Q as (M' & (Q1 & Q2 & Q3 & _)). cbn in *. split; [split; [rewrite Q3; exact Hmax|auto]|]. auto.
  - assert (NM : map_ok g -> map_ok g').
    { intros (_ & _ & _ & M). destruct HA as (_ & HA). rewrite HA in M. discriminate. }
    destruct (is_add o) eqn:EO.
    + destruct o; try discriminate. cbn [gcd_step op_wf] in *.
      pose proof (first_add_step g ty base len caps r g' HA Hmax ltac:(tauto) ltac:(tauto) H) as P.
      destruct r as [v|e|]; cbn [first_add_post] in P; [| |congruence].
      * destruct P as (_ & _ & _ & _ & _ & (S1 & S2 & S3 & _) & M & _ & _).
        split; [split; [rewrite S3; exact Hmax|auto]|]. auto.
      * destruct P as [->|((S1 & S2 & S3 & _) & M & _)].
        -- split; [split; auto|]. auto.
        -- split; [split; [rewrite S3; exact Hmax|auto]|]. auto.
    + pose proof (gcd_step_absent g o r g' HA ltac:(lia) EO H) as P.
      destruct r as [v|e|]; [| |congruence].
      * destruct P as [(_ & ->)|[(_ & ->)|(_ & _ & ->)]];
          (split; [split; [exact Hmax|right; exact HA]|]; auto).
      * subst g'. split; [split; [exact Hmax|right; exact HA]|]. auto.
Qed.

Lemma run_inv : forall ops g g', gcd_inv g -> Forall op_wf ops -> gcd_run g ops = Some g' ->
  gcd_inv g' /\ g_max g' = g_max g /\ g_dbg g' = g_dbg g /\ g_nodesz g' = g_nodesz g /\ (map_ok g -> map_ok g').
Proof.
  induction ops as [|o ops IH]; intros g g' HI HW H; cbn [gcd_run] in H.
  - inversion H; subst. auto 10.
  - inversion HW; subst. destruct (gcd_step g o) as [r g1] eqn:E.
    assert (Hp : r <> Panic) by (intros ->; discriminate H).
    destruct (step_frame g o r g1 HI H2 E Hp) as (I1 & A1 & A2 & A3 & A4).
    assert (H' : gcd_run g1 ops = Some g') by (destruct r; [exact H|exact H|congruence]).
    destruct (IH g1 g' I1 H3 H') as (I2 & B1 & B2 & B3 & B4). rewrite B1, B2, B3. auto 10.
Qed.

Lemma new_inv : forall dbg nodesz bits prio, bits < 64 -> gcd_inv (gcd_new dbg nodesz bits prio).
Proof.
  intros dbg nodesz bits prio H. split.
  - cbn [gcd_new g_max]. split; [apply pow2_pos|]. apply N.pow_lt_mono_r; lia.
  - right. split; reflexivity.
Qed.

Lemma reachable_inv : forall dbg nodesz bits prio ops g, reachable dbg nodesz bits prio ops g ->
  gcd_inv g /\ g_max g = 2 ^ bits /\ g_dbg g = dbg /\ g_nodesz g = nodesz.
Proof.
  intros dbg nodesz bits prio ops g (Hb & HW & HR).
  destruct (run_inv ops _ g (new_inv dbg nodesz bits prio Hb) HW HR) as (A & B & C & D & _). auto.
Qed.

Lemma run_app : forall o1 o2 g, gcd_run g (o1 ++ o2) =
  match gcd_run g o1 with Some g' => gcd_run g' o2 | None => None end.
Proof.
  induction o1 as [|o r IH]; intros o2 g; cbn [app gcd_run]; [reflexivity|].
  destruct (gcd_step g o) as [[v|e|] g1]; auto.
Qed.

(** ** No panics in a release build *)
Lemma step_no_panic : forall g o, gcd_inv g -> op_wf o -> g_dbg g = false -> fst (gcd_step g o) <> Panic.
Proof.
  intros g o (Hmax & HI) Hw Hd. destruct (gcd_step g o) as [r g'] eqn:E. cbn [fst]. intros ->.
  destruct HI as [HM|HA].
  - pose proof (gcd_step_map g o Panic g' HM Hmax Hw E) as P. cbn in P. congruence.
  - destruct (is_add o) eqn:EO.
    + destruct o; try discriminate. cbn [gcd_step op_wf] in *.
      pose proof (first_add_step g ty base len caps Panic g' HA Hmax ltac:(tauto) ltac:(tauto) E) as P. cbn in P. congruence.
    + pose proof (gcd_step_absent g o Panic g' HA ltac:(lia) EO E) as P. cbn in P. congruence.
Qed.

Lemma run_no_panic : forall ops g, gcd_inv g -> Forall op_wf ops -> g_dbg g = false -> gcd_run g ops <> None.
Proof.
  induction ops as [|o ops IH]; intros g HI HW Hd; cbn [gcd_run]; [discriminate|].
  inversion HW; subst. pose proof (step_no_panic g o HI H1 Hd) as NP.
  destruct (gcd_step g o) as [r g1] eqn:E. cbn [fst] in NP.
  destruct (step_frame g o r g1 HI H1 E NP) as (I1 & _ & A2 & _).
  destruct r; [apply IH; auto; congruence|apply IH; auto; congruence|congruence].
Qed.

(** ** What a step does to one address *)

(** The recorded state of [a] changes only by the call's own effect on its own range - or, for the very
    first add, by the creation of the map. *)
Lemma step_at : forall g o r g' a, map_ok g -> 0 < g_max g < two64 -> op_wf o -> gcd_step g o = (r, g') ->
  r <> Panic ->
  state_at (g_blocks g') a = state_at (g_blocks g) a \/
  exists b l s s' v, call_range o v = Some (b, l) /\ in_range b l a /\ (r = Ok v \/ (is_free o = true /\ exists e, r = Err e)) /\
    state_at (g_blocks g) a = Some s /\ state_at (g_blocks g') a = Some s' /\
    (call_effect o s s' \/ (is_free o = true /\ ms_alloc s = true /\ ms_type s <> NonExistent /\
        ms_alloc s' = false /\ ms_type s' = ms_type s /\ ms_caps s' = ms_caps s /\ ms_attrs s' = ms_attrs s)).
Proof.
  intros g o r g' a HM Hmax Hw H Hp. pose proof (gcd_step_map g o r g' HM Hmax Hw H) as P.
  destruct r as [v|e|]; [| |congruence]; cbn [step_post] in P.
  - assert (G : (is_free o = true /\ g_locked g = true /\ g' = g) \/
                    (same_frame g g' /\ map_ok g' /\
                      exists base len s s', call_range o v = Some (base, len) /\ 0 < len /\ base + len <= g_max g /\
                      call_effect o s s' /\ range_changed (g_blocks g) (g_blocks g') base len s s') ->
          state_at (g_blocks g') a = state_at (g_blocks g) a \/
          exists b l s s' v', call_range o v' = Some (b, l) /\ in_range b l a /\
            (Ok v = Ok v' :> res efi_error N \/ (is_free o = true /\ exists e, Ok v = Err e :> res efi_error N)) /\
            state_at (g_blocks g) a = Some s /\ state_at (g_blocks g') a = Some s' /\
            (call_effect o s s' \/ (is_free o = true /\ ms_alloc s = true /\ ms_type s <> NonExistent /\
              ms_alloc s' = false /\ ms_type s' = ms_type s /\ ms_caps s' = ms_caps s /\ ms_attrs s' = ms_attrs s))).
    { intros [(_ & _ & ->)|(_ & _ & b & l & s & s' & C1 & C2 & C3 & C4 & C5 & C6)]; [auto|].
      destruct (N.le_gt_cases b a) as [L1|L1]; [destruct (N.lt_ge_cases a (b + l)) as [L2|L2]|].
      - right. exists b, l, s, s', v. destruct (C5 a) as (X & Y); [unfold in_range; lia|]. unfold in_range. auto 10.
      - left. apply C6. unfold in_range. lia.
      - left. apply C6. unfold in_range. lia. }
    destruct o; try (apply G; exact P); subst g'; left; reflexivity.
  - destruct P as [->|(Fr & _ & P)]; [auto|].
    destruct P as (b & l & s & C1 & C2 & C3 & C4 & _ & _ & _ & C5 & C6).
    destruct (N.le_gt_cases b a) as [L1|L1]; [destruct (N.lt_ge_cases a (b + l)) as [L2|L2]|].
    + right. eexists b, l, s, _, 0. destruct (C5 a) as (X & Y); [unfold in_range; lia|].
      split; [exact C1|]. split; [unfold in_range; lia|]. split; [right; eauto|].
      split; [exact X|]. split; [exact Y|]. right. cbn. auto 10.
    + left. apply C6. unfold in_range. lia.
    + left. apply C6. unfold in_range. lia.
Qed.

(** ** Live allocations *)
Lemma absent_none : forall g a, map_absent g -> state_at (g_blocks g) a = None.
Proof. intros g a (-> & _). reflexivity. Qed.

Lemma step_keeps_alloc : forall g o r g' a, gcd_inv g -> op_wf o -> gcd_step g o = (r, g') -> r <> Panic ->
  (forall b l, is_free o = true -> call_range o 0 = Some (b, l) -> ~ in_range b l a) ->
  allocated_at g a -> allocated_at g' a.
Proof.
  intros g o r g' a (Hmax & [HM|HA]) Hw H Hp Hf (s & S1 & S2).
  2: { rewrite (absent_none g a HA) in S1. discriminate. }
  destruct (step_at g o r g' a HM Hmax Hw H Hp) as [E|(b & l & s0 & s' & v & C1 & C2 & _ & C3 & C4 & C5)].
  - exists s. rewrite E. auto.
  - assert (s0 = s) by congruence. subst s0.
    destruct C5 as [C5|(C5 & _)].
    + exists s'. split; [exact C4|]. destruct o; cbn [call_effect] in C5; cbn [is_free call_range] in *.
      * destruct C5 as (C5 & _). congruence.
      * destruct C5 as (C5 & _). congruence.
      * destruct C5 as (C5 & _). congruence.
      * exfalso. eapply Hf; eauto.
      * exfalso. eapply Hf; eauto.
      * destruct C5 as (_ & _ & ->). exact S2.
      * destruct C5 as (_ & _ & ->). exact S2.
      * contradiction.
      * contradiction.
    + exfalso. destruct o; try discriminate; cbn [call_range] in *; eapply Hf; eauto.
Qed.

Lemma run_keeps_alloc : forall ops g g' a, gcd_inv g -> Forall op_wf ops -> gcd_run g ops = Some g' ->
  (forall o b l, In o ops -> is_free o = true -> call_range o 0 = Some (b, l) -> ~ in_range b l a) ->
  allocated_at g a -> allocated_at g' a.
Proof.
  induction ops as [|o ops IH]; intros g g' a HI HW H Hf HA; cbn [gcd_run] in H.
  - inversion H; subst. exact HA.
  - inversion HW; subst. destruct (gcd_step g o) as [r g1] eqn:E.
    assert (Hp : r <> Panic) by (intros ->; discriminate H).
    destruct (step_frame g o r g1 HI H2 E Hp) as (I1 & _).
    assert (H' : gcd_run g1 ops = Some g') by (destruct r; [exact H|exact H|congruence]).
    eapply IH; eauto.
    + intros; eapply Hf; eauto; now right.
    + apply (step_keeps_alloc g o r g1 a); auto. intros b l F1 F2; apply (Hf o b l); auto; now left.
Qed.

Lemma alloc_takes_free : forall g at_ ty s len image device v g', gcd_inv g ->
  op_wf (OpAllocate at_ ty s len image device) ->
  gcd_step g (OpAllocate at_ ty s len image device) = (Ok v, g') ->
  forall a, in_range v len a -> ~ allocated_at g a /\ allocated_at g' a.
Proof.
  intros g at_ ty s len image device v g' (Hmax & [HM|HA]) Hw H a Ha; cbn [gcd_step op_wf] in *.
  - apply allocate_spec in H; auto; try tauto.
    destruct H as (_ & _ & _ & _ & _ & _ & st & st' & _ & _ & CE & R & _). destruct (R a Ha) as (R1 & R2).
    cbn [call_effect] in CE. split.
    + intros (s0 & S1 & S2). destruct CE as (CE & _). congruence.
    + exists st'. split; [exact R2|]. destruct CE as (_ & _ & _ & _ & _ & _ & ->). reflexivity.
  - pose proof (gcd_step_absent g (OpAllocate at_ ty s len image device) (Ok v) g' HA ltac:(lia) eq_refl H) as P.
    cbn in P. destruct P as [(P & _)|[(P & _)|(P & _)]]; discriminate.
Qed.

(** ** Existing memory was added *)
Lemma step_existing : forall g o r g' a s', gcd_inv g -> op_wf o -> gcd_step g o = (r, g') -> r <> Panic ->
  state_at (g_blocks g') a = Some s' -> ms_type s' <> NonExistent ->
  (exists s, state_at (g_blocks g) a = Some s /\ ms_type s <> NonExistent) \/
  (exists ty b l c, o = OpAdd ty b l c /\ in_range b l a).
Proof.
  intros g o r g' a s' (Hmax & [HM|HA]) Hw H Hp S T.
  - destruct (step_at g o r g' a HM Hmax Hw H Hp) as [E|(b & l & s0 & s1 & v & C1 & C2 & _ & C3 & C4 & C5)].
    + left. exists s'. rewrite <- E. auto.
    + assert (s1 = s') by congruence. subst s1. destruct C5 as [C5|C5].
      2: { left. exists s0. tauto. }
      destruct o; cbn [call_effect call_range] in *; try contradiction.
      * right. inversion C1; subst. exists ty, b, l, caps. auto.
      * left. exists s0. tauto.
      * left. exists s0. split; [exact C3|]. destruct C5 as (_ & -> & X & _). exact X.
      * left. exists s0. tauto.
      * left. exists s0. tauto.
      * left. exists s0. tauto.
      * left. exists s0. tauto.
  - destruct (is_add o) eqn:EO.
    + destruct o; try discriminate. right. exists ty, base, len, caps. split; [reflexivity|].
      cbn [gcd_step op_wf] in *.
      pose proof (first_add_step g ty base len caps r g' HA Hmax ltac:(tauto) ltac:(tauto) H) as P.
      destruct (N.le_gt_cases base a) as [L1|L1]; [destruct (N.lt_ge_cases a (base + len)) as [L2|L2]|];
        [unfold in_range; lia| |];
      (exfalso; destruct r as [v|e|]; cbn [first_add_post] in P; [| |congruence];
       [destruct P as (_ & P1 & _ & _ & _ & (_ & _ & S3 & _) & (M & _) & _ & P)
       |destruct P as [->|((_ & _ & S3 & _) & (M & _) & _ & P)]; [rewrite (absent_none g a HA) in S; discriminate|]];
       (assert (Ha : a < g_max g) by (destruct (N.lt_ge_cases a (g_max g)); [assumption|];
           rewrite (state_at_out _ _ _ _ M) in S by lia; discriminate));
       [rewrite (P a Ha) in S; unfold first_state in S;
        destruct ((base <=? a) && (a <? base + slice_size g)) eqn:Q1; [lia|];
        destruct ((base <=? a) && (a <? base + len)) eqn:Q2; [lia|]
       |rewrite (P a Ha) in S by (unfold in_range; lia)]; inversion S; subst; apply T; reflexivity).
    + pose proof (gcd_step_absent g o r g' HA ltac:(lia) EO H) as P.
      assert (B : g_blocks g' = g_blocks g).
      { destruct r as [v|e|]; [|subst; reflexivity|congruence].
        destruct P as [(_ & ->)|[(_ & ->)|(_ & _ & ->)]]; reflexivity. }
      rewrite B, (absent_none g a HA) in S. discriminate.
Qed.

Lemma run_existing : forall ops g g' a s', gcd_inv g -> Forall op_wf ops -> gcd_run g ops = Some g' ->
  state_at (g_blocks g') a = Some s' -> ms_type s' <> NonExistent ->
  (exists s, state_at (g_blocks g) a = Some s /\ ms_type s <> NonExistent) \/
  (exists ty b l c, In (OpAdd ty b l c) ops /\ in_range b l a).
Proof.
  induction ops as [|o ops IH]; intros g g' a s' HI HW H S T; cbn [gcd_run] in H.
  - inversion H; subst. left. eauto.
  - inversion HW; subst. destruct (gcd_step g o) as [r g1] eqn:E.
    assert (Hp : r <> Panic) by (intros ->; discriminate H).
    destruct (step_frame g o r g1 HI H2 E Hp) as (I1 & _).
    assert (H' : gcd_run g1 ops = Some g') by (destruct r; [exact H|exact H|congruence]).
    destruct (IH g1 g' a s' I1 H3 H' S T) as [(s & X1 & X2)|(ty & b & l & c & X1 & X2)].
    + destruct (step_existing g o r g1 a s HI H2 E Hp X1 X2) as [Y|(ty & b & l & c & -> & Y)]; [auto|].
      right. exists ty, b, l, c. split; [now left|exact Y].
    + right. exists ty, b, l, c. split; [now right|exact X2].
Qed.

Lemma step_attrs : forall g o r g', gcd_inv g -> op_wf o -> gcd_step g o = (r, g') -> r <> Panic ->
  attrs_ok g -> attrs_ok g'.
Proof.
  intros g o r g' (Hmax & [HM|HA]) Hw H Hp HI a s' S T.
  - destruct (step_at g o r g' a HM Hmax Hw H Hp) as [E|(b & l & s0 & s1 & v & C1 & C2 & _ & C3 & C4 & C5)].
    + rewrite E in S. eapply HI; eauto.
    + assert (s1 = s') by congruence. subst s1. destruct C5 as [C5|(_ & _ & C5 & _ & _ & C6 & C7)].
      * eapply effect_attrs; eauto.
      * rewrite C6, C7. eapply HI; eauto.
  - destruct (is_add o) eqn:EO.
    + destruct o; try discriminate. cbn [gcd_step op_wf] in *. 
      pose proof (first_add_step g ty base len caps r g' HA Hmax ltac:(tauto) ltac:(tauto) H) as P.
      destruct r as [v|e|]; cbn [first_add_post] in P; [| |congruence].
      * destruct P as (_ & _ & _ & _ & _ & _ & _ & P & _). eapply P; eauto.
      * destruct P as [->|(_ & _ & P & _)]; [rewrite (absent_none g a HA) in S; discriminate|]. eapply P; eauto.
    + pose proof (gcd_step_absent g o r g' HA ltac:(lia) EO H) as P.
      assert (B : g_blocks g' = g_blocks g).
      { destruct r as [v|e|]; [|subst; reflexivity|congruence].
        destruct P as [(_ & ->)|[(_ & ->)|(_ & _ & ->)]]; reflexivity. }
      rewrite B, (absent_none g a HA) in S. discriminate.
Qed.

Lemma run_attrs : forall ops g g', gcd_inv g -> Forall op_wf ops -> gcd_run g ops = Some g' -> attrs_ok g -> attrs_ok g'.
Proof.
  induction ops as [|o ops IH]; intros g g' HI HW H HA; cbn [gcd_run] in H.
  - inversion H; subst. exact HA.
  - inversion HW; subst. destruct (gcd_step g o) as [r g1] eqn:E.
    assert (Hp : r <> Panic) by (intros ->; discriminate H).
    destruct (step_frame g o r g1 HI H2 E Hp) as (I1 & _).
    assert (H' : gcd_run g1 ops = Some g') by (destruct r; [exact H|exact H|congruence]).
    apply (IH g1 g' I1 H3 H'). exact (step_attrs g o r g1 HI H2 E Hp HA).
Qed.

