(** Steps and histories of the memory GCD. *)
From Verif Require Import Base.Prelude Align.Model Align.Proofs Align.Main Gcd.Blocks Gcd.Model Gcd.Spec Gcd.BlockProofs Gcd.Proofs Gcd.AllocProofs.
Local Open Scope N_scope.

Lemma gcd_step_map : forall g o r g', map_ok g -> 0 < g_max g < two64 -> op_wf o ->
  gcd_step g o = (r, g') -> step_post g o r g'.
Proof.
  intros g o r g' HM Hmax Hw H. destruct o; cbn [gcd_step op_wf] in *.
  - eapply add_step; eauto; tauto.
  - eapply remove_step; eauto; tauto.
  - apply allocate_spec in H; auto; try tauto.
    destruct r as [v|e|]; cbn [step_post]; auto.
    destruct H as (A & B & _ & _ & _ & _ & st & st' & C1 & C2 & C3 & C4). right.
    split; [exact A|]. split; [exact B|]. exists v, len, st, st'. cbn [call_range]. auto 10.
  - unfold free_memory_space in H. destruct (g_locked g) eqn:E.
    + cbn in H. inversion H; subst. cbn [step_post]. auto.
    + apply (free_step false) in H; auto; tauto.
  - unfold free_memory_space_preserving_ownership in H. destruct (g_locked g) eqn:E.
    + cbn in H. inversion H; subst. cbn [step_post]. auto.
    + apply (free_step true) in H; auto; tauto.
  - eapply set_attributes_step; eauto; tauto.
  - eapply set_capabilities_step; eauto; tauto.
  - inversion H; subst. reflexivity.
  - inversion H; subst. reflexivity.
Qed.

(** ** Before the map exists *)
Definition is_add (o : gcd_op) : bool := match o with OpAdd _ _ _ _ => true | _ => false end.

Lemma gcd_step_absent : forall g o r g', map_absent g -> 0 < g_max g -> is_add o = false ->
  gcd_step g o = (r, g') ->
  match r with
  | Ok _ => (o = OpLock /\ g' = lock_memory_space g) \/ (o = OpUnlock /\ g' = unlock_memory_space g) \/
            (is_free o = true /\ g_locked g = true /\ g' = g)
  | Err _ => g' = g
  | Panic => g_dbg g = true
  end.
Proof.
  intros g o r g' (HB & HC) Hmax Ha H. destruct o; cbn [gcd_step is_add] in *; try discriminate.
  - unfold remove_memory_space in H. rewrite HB in H. cbn [closest] in H.
    destruct (check_range g base len false) as [[]|e|] eqn:EC; cbn in H; inversion H; subst; auto.
    eapply check_range_panic; eauto.
  - unfold allocate_memory_space in H. destruct (g_locked g).
    { unfold debug_fail in H. destruct (g_dbg g) eqn:Ed; inversion H; subst; auto. }
    destruct (N.eqb_spec (g_max g) 0); [lia|].
    destruct ((len =? 0) || (image =? 0) || mt_eqb ty Unaccepted); [inversion H; subst; reflexivity|].
    destruct at_ as [m|m|a].
    + unfold allocate_bottom_up in H. destruct (len =? 0); [inversion H; subst; reflexivity|].
      destruct (ushift_amount (g_dbg g) align_shift) as [sh|e|] eqn:ES.
      * rewrite HB in H. cbn in H. destruct (_ =? u64_max); inversion H; subst; reflexivity.
      * now apply shift_err in ES.
      * inversion H; subst. now apply shift_panic in ES.
    + unfold allocate_top_down, top_down_search in H. rewrite HB in H.
      destruct (len =? 0); [inversion H; subst; reflexivity|].
      destruct (g_prio32 g && _); cbn in H; try rewrite HB in H; cbn in H;
        destruct (_ =? u64_max); inversion H; subst; reflexivity.
    + destruct (uadd (g_dbg g) a len) as [e|e|] eqn:EU.
      * unfold allocate_address in H. rewrite HB in H. cbn [closest] in H.
        destruct (g_max g <? e); [inversion H; subst; reflexivity|].
        destruct (len =? 0); inversion H; subst; reflexivity.
      * now apply uadd_err in EU.
      * inversion H; subst. now apply uadd_panic in EU.
  - unfold free_memory_space in H. destruct (g_locked g) eqn:EL.
    + cbn in H. inversion H; subst. auto.
    + unfold free_memory_space_worker in H. rewrite HB in H. cbn [closest] in H.
      destruct (check_range g base len true) as [[]|e|] eqn:EC; cbn in H; inversion H; subst; auto.
      eapply check_range_panic; eauto.
  - unfold free_memory_space_preserving_ownership in H. destruct (g_locked g) eqn:EL.
    + cbn in H. inversion H; subst. auto.
    + unfold free_memory_space_worker in H. rewrite HB in H. cbn [closest] in H.
      destruct (check_range g base len true) as [[]|e|] eqn:EC; cbn in H; inversion H; subst; auto.
      eapply check_range_panic; eauto.
  - unfold set_memory_space_attributes, set_gcd_memory_attributes in H. rewrite HB in H. cbn [closest] in H.
    destruct (check_range g base len true) as [[]|e|] eqn:EC; cbn in H; inversion H; subst; auto.
    eapply check_range_panic; eauto.
  - unfold set_memory_space_capabilities in H. rewrite HB in H. cbn [closest] in H.
    destruct (check_range g base len true) as [[]|e|] eqn:EC; cbn in H; inversion H; subst; auto.
    eapply check_range_panic; eauto.
  - inversion H; subst. auto.
  - inversion H; subst. auto.
Qed.

(** ** Attributes stay within capabilities *)
Lemma subset_lor : forall a b c, bits_subset a c -> bits_subset b c -> bits_subset (N.lor a b) c.
Proof. intros a b c H1 H2 i Hi. rewrite N.lor_spec in Hi. apply orb_true_iff in Hi. destruct Hi; auto. Qed.

Lemma rp_in_extended : forall ty c, bits_subset MEMORY_RP (added_caps ty c).
Proof.
  intros ty c i Hi.
  assert (X : N.testbit MEMORY_ACCESS_MASK i = true).
  { assert (Y : N.land MEMORY_RP MEMORY_ACCESS_MASK = MEMORY_RP) by reflexivity.
    rewrite <- Y, N.land_spec in Hi. apply andb_true_iff in Hi. tauto. }
  rewrite <- extend_caps_added. unfold extend_caps. destruct (mt_eqb ty MemoryMappedIo); rewrite !N.lor_spec, X, ?orb_true_r; reflexivity.
Qed.

Lemma effect_attrs : forall o s s', call_effect o s s' ->
  (ms_type s <> NonExistent -> bits_subset (ms_attrs s) (ms_caps s)) ->
  ms_type s' <> NonExistent -> bits_subset (ms_attrs s') (ms_caps s').
Proof.
  intros o s s' H Hs Ht. destruct o; cbn [call_effect] in H; try contradiction.
  - destruct H as (_ & _ & _ & ->). cbn. apply rp_in_extended.
  - destruct H as (_ & _ & ->). cbn in Ht. congruence.
  - destruct H as (_ & H1 & H2 & _ & _ & _ & ->). cbn in *. apply Hs. congruence.
  - destruct H as (_ & H1 & H2 & ->). exact H2.
  - destruct H as (_ & H1 & H2 & ->). exact H2.
  - destruct H as (_ & H1 & ->). exact H1.
  - destruct H as (_ & H1 & ->). exact H1.
Qed.


Lemma range_attrs : forall g g' base len s s', attrs_ok g -> range_changed (g_blocks g) (g_blocks g') base len s s' ->
  (ms_type s' <> NonExistent -> bits_subset (ms_attrs s') (ms_caps s')) -> attrs_ok g'.
Proof.
  intros g g' base len s s' HI (R1 & R2) HS a t St Ht.
  destruct (N.le_gt_cases base a) as [L1|L1]; [destruct (N.lt_ge_cases a (base + len)) as [L2|L2]|].
  - destruct (R1 a) as (_ & X); [unfold in_range; lia|]. rewrite X in St. inversion St; subst. auto.
  - rewrite (R2 a) in St by (unfold in_range; lia). eapply HI; eauto.
  - rewrite (R2 a) in St by (unfold in_range; lia). eapply HI; eauto.
Qed.

Lemma range_attrs_effect : forall g g' o base len s s', attrs_ok g -> 0 < len ->
  range_changed (g_blocks g) (g_blocks g') base len s s' -> call_effect o s s' -> attrs_ok g'.
Proof.
  intros g g' o base len s s' HI Hl R CE. eapply range_attrs; eauto. intros Ht.
  eapply effect_attrs; eauto. intros Hn. destruct R as (R1 & _). destruct (R1 base) as (X & _); [unfold in_range; lia|].
  eapply HI; eauto.
Qed.

(** ** The first successful add *)

(** A fresh map: nothing exists. *)
Definition fresh_map (g : gcd) : gcd :=
  mkGcd (g_dbg g) (g_nodesz g) (g_max g) MEMORY_BLOCK_SLICE_LEN
        [mkBlock 0 (g_max g) initial_state] (g_locked g) (g_prio32 g).

Lemma fresh_map_ok : forall g, 0 < g_max g -> map_ok (fresh_map g).
Proof.
  intros g H. unfold map_ok, fresh_map. cbn. unfold b_end. cbn. repeat split; auto. vm_compute. discriminate.
Qed.

(** [g'] is [g] with a map over the same address space. *)
Definition same_frame_map (g g' : gcd) : Prop :=
  g_dbg g' = g_dbg g /\ g_nodesz g' = g_nodesz g /\ g_max g' = g_max g /\
  g_locked g' = g_locked g /\ g_prio32 g' = g_prio32 g.

Lemma same_frame_fields : forall g g', same_frame g g' -> same_frame_map g g'.
Proof. unfold same_frame, same_frame_map. intros [] [] H. cbn in *. inversion H; subst. auto. Qed.

Lemma sfm_trans : forall a b c, same_frame_map a b -> same_frame_map b c -> same_frame_map a c.
Proof. unfold same_frame_map. intuition congruence. Qed.

Lemma extend_caps_idem : forall ty c, extend_caps ty (extend_caps ty c) = added_caps ty c.
Proof.
  intros ty c. rewrite <- extend_caps_added. unfold extend_caps. destruct (mt_eqb ty MemoryMappedIo); apply N.bits_inj; intros i;
  rewrite !N.lor_spec;
  destruct (N.testbit c i), (N.testbit MEMORY_ACCESS_MASK i), (N.testbit MEMORY_RUNTIME i);
  try destruct (N.testbit MEMORY_ISA_VALID i); reflexivity.
Qed.

Definition first_add_post (g : gcd) (ty : mem_type) (base len caps : N) (r : res efi_error N) (g' : gcd) : Prop :=
  match r with
  | Ok _ => ty = SystemMemory /\ slice_size g <= len /\ 0 < len /\ base + len <= g_max g /\ g_locked g = false /\
            same_frame_map g g' /\ map_ok g' /\ attrs_ok g' /\
            forall a, a < g_max g -> state_at (g_blocks g') a = Some (first_state g caps base len a)
  | Err _ => g' = g \/ (same_frame_map g g' /\ map_ok g' /\ attrs_ok g' /\
               forall a, a < g_max g -> ~ in_range base len a -> state_at (g_blocks g') a = Some initial_state)
  | Panic => g_dbg g = true
  end.

Lemma fresh_state : forall g a, a < g_max g -> state_at (g_blocks (fresh_map g)) a = Some initial_state.
Proof.
  intros g a H. cbn. unfold b_end. cbn. destruct (N.ltb_spec a (g_max g)); [|lia]. destruct (N.leb_spec 0 a); [reflexivity|lia].
Qed.

Lemma first_add_step : forall g ty base len caps r g', map_absent g -> 0 < g_max g < two64 ->
  word base -> word len ->
  add_memory_space g ty base len caps = (r, g') -> first_add_post g ty base len caps r g'.
Proof.
  intros g ty base len caps r g' (HB & HC) Hmax Hb Hl H. unfold add_memory_space in H.
  destruct (add_checks g base len) as [[]|e|] eqn:EC; [|inversion H; subst; cbn; auto|].
  2: { unfold add_checks in EC. destruct (g_max g =? 0); [discriminate|]. destruct (len =? 0); [discriminate|].
       destruct (_ || _); discriminate. }
  rewrite HC in H. cbn [N.eqb] in H. unfold init_memory_blocks in H. change (0 =? 0) with true in H. cbv iota in H.
  destruct (N.eqb_spec (g_max g) 0); [lia|].
  destruct (mt_eqb ty SystemMemory && (slice_size g <=? len)) eqn:ET; cbn [negb] in H; [|inversion H; subst; cbn; auto].
  apply andb_true_iff in ET. destruct ET as (ET & ES). apply mt_eqb_spec in ET. subst ty. apply N.leb_le in ES.
  change (mkGcd (g_dbg g) (g_nodesz g) (g_max g) MEMORY_BLOCK_SLICE_LEN
                    [mkBlock 0 (g_max g) initial_state] (g_locked g) (g_prio32 g)) with (fresh_map g) in H.
  pose proof (fresh_map_ok g ltac:(lia)) as M0. assert (X0 : 0 < g_max (fresh_map g) < two64) by exact Hmax.
  assert (A0 : attrs_ok (fresh_map g)).
  { intros a s S T. cbn in S. destruct ((0 <=? a) && _); [|discriminate]. inversion S; subst. cbn in T. congruence. }
  assert (S0 : same_frame_map g (fresh_map g)) by (unfold same_frame_map; cbn; auto).
  change (add_checks (fresh_map g) base len) with (add_checks g base len) in H. rewrite EC in H.
  rewrite extend_caps_idem in H.
  destruct (add_to_blocks (fresh_map g) SystemMemory base len (added_caps SystemMemory caps)) as [r1 g1] eqn:E1.
  pose proof (add_to_blocks_step _ _ _ _ _ _ _ M0 X0 Hb Hl E1) as P1.
  destruct r1 as [v|e|].
  2: { subst g1. inversion H; subst. cbn [first_add_post]. right. split; [exact S0|]. split; [exact M0|]. split; [exact A0|].
       intros a Ha _. now apply fresh_state. }
  2: { inversion H; subst. exact P1. }
  destruct P1 as (F1 & M1 & L0 & Le & s0 & s1 & T1 & R1 & _). change (g_max (fresh_map g)) with (g_max g) in Le.
  apply same_frame_fields in F1. pose proof (sfm_trans _ _ _ S0 F1) as S1.
  assert (X1 : 0 < g_max g1 < two64) by (destruct S1 as (_ & _ & -> & _); exact Hmax).
  cbn [state_transition] in T1. apply add_transition_some in T1. destruct T1 as (_ & _ & _ & T1).
  assert (A1 : attrs_ok g1).
  { eapply range_attrs; [exact A0|exact R1|]. intros _. rewrite T1. exact (rp_in_extended _ _). }
  assert (Es0 : s0 = initial_state).
  { destruct R1 as (R1 & _). destruct (R1 base) as (Y & _); [unfold in_range; lia|]. rewrite fresh_state in Y by lia. congruence. }
  subst s0. cbn [ms_alloc ms_type ms_caps ms_attrs ms_image ms_device initial_state] in T1.
  destruct (set_memory_space_attributes g1 base len (N.lor MEMORY_WB MEMORY_XP)) as [r2 g2] eqn:E2.
  assert (P2 : step_post g1 (OpSetAttributes base len (N.lor MEMORY_WB MEMORY_XP))
                 (fst (lift_unit (r2, g2))) (snd (lift_unit (r2, g2)))).
  { apply set_attributes_step; auto. rewrite E2. destruct (lift_unit (r2, g2)); reflexivity. }
  assert (NR : r2 <> Err NotReady).
  { intros ->. unfold set_memory_space_attributes, check_range in E2.
    destruct (N.eqb_spec (g_max g1) 0); [lia|]. destruct (len =? 0); [inversion E2|].
    destruct (uadd (g_dbg g1) base len) as [q|q|] eqn:EU; cbn [bind] in E2; [| now apply uadd_err in EU|inversion E2].
    destruct (g_max g1 <? q); [inversion E2|]. destruct (true && _); [inversion E2|].
    unfold set_gcd_memory_attributes in E2. destruct (closest (g_blocks g1) base) as [kk|]; [|inversion E2].
    destruct (g_sst g1 kk base len _) as [[k|[]|] gg]; inversion E2;
    unfold debug_fail in *; destruct (g_dbg g1); discriminate. }
  destruct r2 as [[]|e|]; cbn [lift_unit fst snd step_post] in P2.
  2: { assert (Ei : ignore_not_ready (Err e : res efi_error unit) = Err e) by (destruct e; try reflexivity; congruence).
       rewrite Ei in H. inversion H; subst. cbn [first_add_post]. destruct P2 as [->|(Z & _)]; [|discriminate Z].
       right. split; [exact S1|]. split; [exact M1|]. split; [exact A1|]. intros a Ha Hn. destruct R1 as (_ & R1). rewrite (R1 a Hn). now apply fresh_state. }
  2: { cbn [ignore_not_ready] in H. inversion H; subst. cbn. destruct S1 as (<- & _). exact P2. }
  cbn [ignore_not_ready] in H.
  destruct P2 as [(Z & _)|(F2 & M2 & b2 & l2 & s2 & s2' & C2 & _ & _ & CE2 & R2)]; [discriminate Z|].
  cbn [call_range] in C2. inversion C2; subst b2 l2. clear C2. cbn [call_effect] in CE2.
  apply same_frame_fields in F2. pose proof (sfm_trans _ _ _ S1 F2) as S2.
  assert (X2 : 0 < g_max g2 < two64) by (destruct S2 as (_ & _ & -> & _); exact Hmax).
  pose proof (range_attrs_effect g1 g2 (OpSetAttributes base len (N.lor MEMORY_WB MEMORY_XP)) base len s2 s2' A1 L0 R2 CE2) as A2.
  destruct (range_changed_trans _ _ _ _ _ _ _ _ _ L0 R1 R2) as (<- & R12).
  destruct (allocate_memory_space g2 (AtAddress base) SystemMemory 12 (slice_size g) BS_DATA_HANDLE None) as [r3 g3] eqn:E3.
  pose proof (allocate_spec g2 (AtAddress base) SystemMemory 12 (slice_size g) BS_DATA_HANDLE None r3 g3 M2 X2
                ltac:(unfold word in *; lia) Hb E3) as P3.
  destruct r3 as [v3|e|].
  2: { inversion H; subst. cbn [first_add_post]. right. split; [exact S2|]. split; [exact M2|]. split; [exact A2|].
       intros a Ha Hn. destruct R12 as (_ & R12). rewrite (R12 a Hn). now apply fresh_state. }
  2: { inversion H; subst. cbn. destruct S2 as (<- & _). exact P3. }
  destruct P3 as (F3 & M3 & LK & _ & WB & _ & s3 & s3' & L3 & _ & CE3 & R3). cbn in WB. subst v3.
  pose proof (range_attrs_effect g2 g3 _ base (slice_size g) s3 s3' A2 L3 R3 CE3) as A3.
  apply same_frame_fields in F3. pose proof (sfm_trans _ _ _ S2 F3) as S3.
  assert (X3 : 0 < g_max g3 < two64) by (destruct S3 as (_ & _ & -> & _); exact Hmax).
  assert (LKg : g_locked g = false) by (destruct S2 as (_ & _ & _ & <- & _); exact LK).
  assert (Es3 : s3 = s2').
  { destruct R3 as (R3 & _). destruct (R3 base) as (Y & _); [unfold in_range; lia|].
    destruct R12 as (R12 & _). destruct (R12 base) as (_ & Y'); [unfold in_range; lia|]. congruence. }
  subst s3. destruct CE2 as (_ & _ & CE2). cbn [call_effect] in CE3. destruct CE3 as (_ & _ & _ & _ & _ & _ & CE3).
  subst s1. cbn [ms_alloc ms_type ms_caps ms_attrs ms_image ms_device initial_state] in CE2. subst s2'. cbn [ms_alloc ms_type ms_caps ms_attrs ms_image ms_device initial_state] in CE3. subst s3'.
  (* the state after the allocation *)
  assert (St3 : forall a, a < g_max g -> state_at (g_blocks g3) a =
     Some (if (base <=? a) && (a <? base + slice_size g)
           then mkMs true SystemMemory (added_caps SystemMemory caps) (N.lor MEMORY_WB MEMORY_XP) BS_DATA_HANDLE 0
           else if (base <=? a) && (a <? base + len)
           then mkMs false SystemMemory (added_caps SystemMemory caps) (N.lor MEMORY_WB MEMORY_XP) 0 0
           else initial_state)).
  { intros a Ha. destruct R3 as (R3a & R3b). destruct R12 as (R12a & R12b).
    destruct ((base <=? a) && (a <? base + slice_size g)) eqn:Q1.
    - destruct (R3a a) as (_ & ->); [unfold in_range; lia|]. reflexivity.
    - rewrite R3b by (unfold in_range; lia).
      destruct ((base <=? a) && (a <? base + len)) eqn:Q2.
      + destruct (R12a a) as (_ & ->); [unfold in_range; lia|]. reflexivity.
      + rewrite R12b by (unfold in_range; lia). apply fresh_state. exact Ha. }
  destruct (N.ltb_spec (slice_size g) len) as [Q|Q].
  - destruct (set_memory_space_attributes g3 (base + slice_size g) (len - slice_size g) (N.lor MEMORY_WB MEMORY_RP)) as [r4 g4] eqn:E4.
    assert (P4 : step_post g3 (OpSetAttributes (base + slice_size g) (len - slice_size g) (N.lor MEMORY_WB MEMORY_RP))
                 (fst (lift_unit (r4, g4))) (snd (lift_unit (r4, g4)))).
    { apply set_attributes_step; auto; [unfold word in *; lia|unfold word in *; lia|]. rewrite E4.
      destruct (lift_unit (r4, g4)); reflexivity. }
    assert (NR4 : r4 <> Err NotReady).
    { intros ->. unfold set_memory_space_attributes, check_range in E4.
      destruct (N.eqb_spec (g_max g3) 0); [lia|]. destruct (len - slice_size g =? 0); [inversion E4|].
      destruct (uadd (g_dbg g3) (base + slice_size g) (len - slice_size g)) as [q|q|] eqn:EU; cbn [bind] in E4; [| now apply uadd_err in EU|inversion E4].
      destruct (g_max g3 <? q); [inversion E4|]. destruct (true && _); [inversion E4|].
      unfold set_gcd_memory_attributes in E4. destruct (closest (g_blocks g3) (base + slice_size g)) as [kk|]; [|inversion E4].
      destruct (g_sst g3 kk _ _ _) as [[k|[]|] gg]; inversion E4;
      unfold debug_fail in *; destruct (g_dbg g3); discriminate. }
    destruct r4 as [[]|e|]; cbn [lift_unit fst snd step_post] in P4.
    + cbn [ignore_not_ready] in H. inversion H; subst.
      destruct P4 as [(Z & _)|(F4 & M4 & b4 & l4 & s4 & s4' & C4 & L4 & _ & CE4 & R4)]; [discriminate Z|].
      cbn [call_range] in C4. inversion C4; subst b4 l4. clear C4. cbn [call_effect] in CE4.
      pose proof (range_attrs_effect g3 _ (OpSetAttributes (base + slice_size g) (len - slice_size g) (N.lor MEMORY_WB MEMORY_RP)) _ _ s4 s4' A3 L4 R4 CE4) as A4.
      apply same_frame_fields in F4. pose proof (sfm_trans _ _ _ S3 F4) as S4.
      cbn [first_add_post]. repeat (split; [auto; fail|]). intros a Ha.
      destruct CE4 as (_ & _ & CE4). destruct R4 as (R4a & R4b).
      assert (Es4 : s4 = mkMs false SystemMemory (added_caps SystemMemory caps) (N.lor MEMORY_WB MEMORY_XP) 0 0).
      { destruct (R4a (base + slice_size g)) as (Y & _); [unfold in_range; lia|]. rewrite St3 in Y by lia.
        destruct ((base <=? base + slice_size g) && (base + slice_size g <? base + slice_size g)) eqn:Q1; [lia|].
        destruct ((base <=? base + slice_size g) && (base + slice_size g <? base + len)) eqn:Q2; [|lia]. congruence. }
      subst s4. cbn [ms_alloc ms_type ms_caps ms_attrs ms_image ms_device initial_state] in CE4. subst s4'. unfold first_state.
      destruct ((base <=? a) && (a <? base + slice_size g)) eqn:Q1.
      * rewrite R4b by (unfold in_range; lia). rewrite St3 by exact Ha. rewrite Q1. reflexivity.
      * destruct ((base <=? a) && (a <? base + len)) eqn:Q2.
        -- destruct (R4a a) as (_ & ->); [unfold in_range; lia|]. reflexivity.
        -- rewrite R4b by (unfold in_range; lia). rewrite St3 by exact Ha. rewrite Q1, Q2. reflexivity.
    + assert (Ei : ignore_not_ready (Err e : res efi_error unit) = Err e) by (destruct e; try reflexivity; congruence).
      rewrite Ei in H. inversion H; subst. cbn [first_add_post]. destruct P4 as [->|(Z & _)]; [|discriminate Z].
      right. split; [exact S3|]. split; [exact M3|]. split; [exact A3|]. intros a Ha Hn. rewrite St3 by exact Ha.
      destruct ((base <=? a) && (a <? base + slice_size g)) eqn:Q1; [exfalso; apply Hn; unfold in_range; lia|].
      destruct ((base <=? a) && (a <? base + len)) eqn:Q2; [exfalso; apply Hn; unfold in_range; lia|]. reflexivity.
    + cbn [ignore_not_ready] in H. inversion H; subst. cbn. destruct S3 as (<- & _). exact P4.
  - inversion H; subst. cbn [first_add_post]. repeat (split; [auto; fail|]). intros a Ha. rewrite St3 by exact Ha.
    unfold first_state. destruct ((base <=? a) && (a <? base + slice_size g)) eqn:Q1; [reflexivity|].
    destruct ((base <=? a) && (a <? base + len)) eqn:Q2; [lia|reflexivity].
Qed.
