(** C53: the page table follows the memory map. *)
From Verif Require Import Base.Prelude Gcd.Blocks Gcd.Model Gcd.Spec Gcd.BlockProofs Gcd.Proofs Gcd.AllocProofs Gcd.Main
  Gcd.Hist Gcd.Complete Gcd.Spin Gcd.SpinSpec Gcd.SpinProofs.
Local Open Scope N_scope.

(** The page table, if any, holds only page bits and maps nothing read-protected (true of every table made by
    this code: [c53_init] and [c53_history] hand it on). *)
Definition table_clean (s : spin) : Prop :=
  forall t p a, sp_pt s = Some t -> t p = Some a -> N.land a page_bits = a /\ N.testbit a 13 = false.

Definition spin_ok (s : spin) : Prop :=
  map_ok (sp_gcd s) /\ 0 < g_max (sp_gcd s) < two64 /\ table_clean s.

Lemma spin_ok_wf : forall s, spin_ok s <-> sp_wf s.
Proof.
  intros s. unfold spin_ok, sp_wf, table_clean, pt_wf. change page_bits with PAGING_MASK.
  split; intros (A & B & C); (split; [exact A|]; split; [exact B|]); eauto.
Qed.

(** [init_paging], when it returns without having hit one of its assertions, leaves a page table that agrees with the
    memory map everywhere - provided free memory was read-protected and the I/O and reserved ranges are whole pages. *)
Theorem c53_init : forall s core_base core_len sections s',
  map_ok (sp_gcd s) -> 0 < g_max (sp_gcd s) < two64 -> free_memory_protected (sp_gcd s) -> io_page_aligned (sp_gcd s) ->
  init_paging s core_base core_len sections = (SOk tt, s') -> sp_alarm s' = false ->
  spin_ok s' /\ in_sync s' /\ sp_default s' = sp_default s /\ sp_pt s' <> None.
Proof.
  intros s cb cl secs s' HM Hm FP IA H HA. destruct (init_paging_sync s cb cl secs s' HM Hm FP IA H HA) as (A & B).
  split; [apply spin_ok_wf, A|exact B].
Qed.

(** One careful call keeps the page table and the memory map together, whatever the paging code does. *)
Theorem c53_step : forall s o r s', spin_ok s -> sop_wf o -> N.land (sp_default s) page_bits <> 0 -> careful s o ->
  spin_step s o = (r, s') -> r <> SPanic -> sp_alarm s' = false ->
  spin_ok s' /\ sp_default s' = sp_default s /\ (in_sync s -> in_sync s').
Proof.
  intros s o r s' WF Wo Hd C H Hp HA. apply spin_ok_wf in WF.
  destruct (step_keeps s o r s' WF Wo Hd C H Hp HA) as (K1 & _ & _ & K4 & _ & K6).
  split; [apply spin_ok_wf, K1|]. split; [exact K4|]. intros S a. apply K6, S.
Qed.

Lemma step_alarm_mono : forall s o r s', spin_step s o = (r, s') -> sp_alarm s = true -> sp_alarm s' = true.
Proof.
  intros s o r s' H HA. destruct o; cbn [spin_step] in H.
  - unfold spin_add in H. destruct (add_memory_space (sp_gcd s) ty base len caps) as [q g'].
    destruct q; injection H as <- <-; exact HA.
  - unfold spin_remove in H. destruct (remove_memory_space (sp_gcd s) base len) as [q g'].
    destruct q as [u|e|]; cbn [sunit] in H; [|injection H as <- <-; exact HA|injection H as <- <-; exact HA].
    injection H as <- <-. cbn [with_gcd sp_pt notify sp_alarm]. destruct (sp_pt s) as [t|]; [|exact HA].
    destruct (take_fault (with_gcd s g')) as [f s1] eqn:TF. apply take_fault_fields in TF.
    destruct TF as (_ & _ & _ & _ & T5). cbn [with_gcd sp_alarm] in T5.
    destruct (pt_unmap t base len f); cbn; congruence.
  - unfold spin_allocate in H.
    destruct (allocate_memory_space (sp_gcd s) at_ ty align_shift len image device) as [q g'].
    destruct q as [v|e|]; [|injection H as <- <-; exact HA|injection H as <- <-; exact HA].
    destruct (get_memory_descriptor_for_address g' v) as [bl|e|]; [| |injection H as <- <-; exact HA];
      cbv zeta in H;
      match type of H with context[spin_set_attributes ?x ?y ?z ?w] =>
        destruct (spin_set_attributes x y z w) as [q2 s2] eqn:SA end;
      (apply set_attributes_mono in SA; [|exact HA]);
      (destruct q2 as [u|e2| |]; [|destruct e2| |]);
      try (injection H as <- <-; exact SA);
      (destruct (assert_then s2 (SOk v)) as [q3 s3] eqn:AT; apply assert_mono in AT; [|exact SA];
       destruct q3; injection H as <- <-; exact AT).
  - unfold spin_free in H. destruct (free_memory_space (sp_gcd s) base len) as [q g'].
    destruct q as [u|e|]; [|destruct e; injection H as <- <-; exact HA|injection H as <- <-; exact HA].
    cbn [with_gcd sp_pt] in H. destruct (sp_pt s) as [t|]; [|injection H as <- <-; exact HA].
    destruct (take_fault (with_gcd s g')) as [f s1] eqn:TF. apply take_fault_fields in TF.
    destruct TF as (_ & _ & _ & _ & T5). cbn [with_gcd sp_alarm] in *.
    assert (A1 : sp_alarm s1 = true) by congruence.
    destruct (pt_unmap t base len f); [injection H as <- <-; exact A1| |];
      (destruct (assert_then s1 (SOk tt)) as [q3 s3] eqn:AT; apply assert_mono in AT; [|exact A1];
       destruct q3; injection H as <- <-; exact AT).
  - destruct (spin_set_attributes s base len attrs) as [q s1] eqn:E. apply set_attributes_mono in E; [|exact HA].
    destruct q; injection H as <- <-; exact E.
  - unfold spin_set_capabilities in H. destruct (set_memory_space_capabilities (sp_gcd s) base len caps) as [q g'].
    destruct q; cbn [sunit] in H; injection H as <- <-; exact HA.
  - injection H as <- <-. exact HA.
  - injection H as <- <-. exact HA.
Qed.

Lemma run_alarm_mono : forall s ops s', careful_run s ops s' -> sp_alarm s = true -> sp_alarm s' = true.
Proof. induction 1; intros HA; [exact HA|]. apply IHcareful_run. eapply step_alarm_mono; eauto. Qed.

(** Histories: any sequence of careful calls, with any failures of the paging code, that ends without an assertion
    having been passed. *)
Theorem c53_history : forall s ops s', careful_run s ops s' -> Forall sop_wf ops ->
  spin_ok s -> N.land (sp_default s) page_bits <> 0 -> in_sync s -> sp_alarm s' = false ->
  spin_ok s' /\ in_sync s'.
Proof.
  induction 1 as [s|s o r s1 ops s' C H N1 N2 R IH]; intros W OK Hd S HA; [auto|].
  inversion W; subst.
  assert (A1 : sp_alarm s1 = false) by (eapply mono_false; [eapply run_alarm_mono; exact R|exact HA]).
  destruct (c53_step s o r s1 OK) as (OK1 & D1 & S1); auto.
  apply IH; auto. now rewrite D1.
Qed.

(** In a debug build no assertion is ever passed: a careful history that has not panicked is in step. *)
Theorem c53_history_debug : forall s ops s', careful_run s ops s' -> Forall sop_wf ops ->
  spin_ok s -> N.land (sp_default s) page_bits <> 0 -> in_sync s -> sp_alarm s = false -> g_dbg (sp_gcd s) = true ->
  spin_ok s' /\ in_sync s'.
Proof.
  induction 1 as [s|s o r s1 ops s' C H N1 N2 R IH]; intros W OK Hd S HA D; [auto|].
  inversion W; subst.
  assert (A1 : sp_alarm s1 = false).
  { rewrite (step_debug s o r s1); auto. now apply spin_ok_wf. }
  assert (D1 : g_dbg (sp_gcd s1) = true).
  { apply spin_ok_wf in OK. destruct (step_keeps s o r s1 OK) as (_ & _ & K & _); auto. congruence. }
  destruct (c53_step s o r s1 OK) as (OK1 & Df & S1); auto.
  apply IH; auto. now rewrite Df.
Qed.

(** From power-on to any later point: memory map built by [ops0], page table by [init_paging], then [ops]. *)
Theorem c53_boot : forall dbg nodesz bits prio ops0 g faults def notices core_base core_len sections s1 ops s2,
  reachable dbg nodesz bits prio ops0 g -> g_blocks g <> [] -> free_memory_protected g -> io_page_aligned g ->
  N.land def page_bits <> 0 ->
  init_paging (Spin g None faults def notices false) core_base core_len sections = (SOk tt, s1) ->
  careful_run s1 ops s2 -> Forall sop_wf ops -> sp_alarm s2 = false ->
  in_sync s2.
Proof.
  intros dbg nodesz bits prio ops0 g faults def notices cb cl secs s1 ops s2 RE NB FP IA Hd HI CR W HA.
  assert (A1 : sp_alarm s1 = false) by (eapply mono_false; [eapply run_alarm_mono; exact CR|exact HA]).
  apply reachable_inv in RE. destruct RE as ((Hmax & HI0) & _).
  assert (HM : map_ok g) by (destruct HI0 as [HM|(X & _)]; [exact HM|contradiction]).
  destruct (c53_init (Spin g None faults def notices false) cb cl secs s1 HM Hmax FP IA HI A1) as (OK & S & D & _).
  eapply c53_history; eauto. rewrite D. exact Hd.
Qed.

(** ** What the calls achieve *)

(** Setting attributes on a stretch of one state takes effect in the map and in the page table. *)
Theorem c53_set_attributes_works : forall s t base len st attrs,
  spin_ok s -> in_sync s -> sp_pt s = Some t -> sp_alarm s = false ->
  0 < len -> base + len <= g_max (sp_gcd s) -> page_aligned base -> page_aligned len ->
  uniform (sp_gcd s) base len st -> ms_type st <> NonExistent -> bits_subset attrs (ms_caps st) ->
  room (sp_gcd s) 2 -> N.land attrs page_bits <> 0 ->
  (N.testbit attrs 13 = true -> N.testbit (ms_attrs st) 13 = false) ->
  (sp_faults s = [] \/ exists r, sp_faults s = None :: r) ->
  exists s' t', spin_set_attributes s base len attrs = (SOk tt, s') /\ sp_alarm s' = false /\ in_sync s' /\
    sp_pt s' = Some t' /\
    (forall a, in_range base len a ->
       (exists st', state_at (g_blocks (sp_gcd s')) a = Some st' /\ ms_attrs st' = attrs /\ ms_type st' = ms_type st) /\
       t' (a / 4096) = if N.testbit attrs 13 then None else Some (N.land attrs page_bits)) /\
    (forall a, ~ in_range base len a ->
       state_at (g_blocks (sp_gcd s')) a = state_at (g_blocks (sp_gcd s)) a /\ t' (a / 4096) = t (a / 4096)).
Proof.
  intros s t base len st attrs OK SY Ht HA Hl Hle P1 P2 U T B R Hm HRP HF.
  pose proof OK as OK0. apply spin_ok_wf in OK. destruct OK as (HM & Hmax & W).
  destruct (set_gcd_succeeds (sp_gcd s) base len attrs st HM Hmax Hl Hle P1 P2 U T B R) as (g' & HG & F & M & CL & (RC1 & RC2)).
  destruct (uniform_turn (sp_gcd s) base len st HM Hmax Hl Hle U) as (d & GD & BB & MN & Ed & Bd).
  assert (SP : exists s2, set_paging_attributes (with_gcd s g') base len attrs = (SOk tt, s2) /\ sp_alarm s2 = false).
  { unfold set_paging_attributes. cbn [with_gcd sp_pt]. rewrite Ht. cbv zeta. rewrite rp_test.
    assert (Q : pt_query t base len = match expected_mapping st with Some a => Ok a | None => Err PtNoMapping end).
    { unfold pt_query. rewrite (proj2 (region_ok_spec base len)) by (split; [|split]; [auto|auto|lia]). cbv zeta.
      assert (EV : forall p, in_region base len p = true -> t p = expected_mapping st).
      { intros p Hp. assert (Hq : p * 4096 / UEFI_PAGE_SIZE = p) by (apply N.div_mul; discriminate).
        rewrite <- Hq in Hp. apply (in_region_addr base len (p * 4096) P1 P2) in Hp.
        rewrite <- Hq. exact (SY (p * 4096) t st Ht (U _ Hp)). }
      assert (BP : in_region base len (base / UEFI_PAGE_SIZE) = true).
      { apply in_region_addr; auto. unfold in_range. lia. }
      rewrite (EV _ BP). rewrite (proj2 (forallb_region t base len (expected_mapping st))) by exact EV. reflexivity. }
    rewrite Q. rewrite (expected_wanted st T). unfold wanted.
    assert (TF : forall q, exists s3, take_fault (with_gcd s q) = (None, s3) /\ sp_alarm s3 = false).
    { intros q. unfold take_fault. cbn [with_gcd sp_faults]. destruct HF as [-> |(r & ->)]; eauto. }
    destruct (TF g') as (s3 & TF3 & A3).
    destruct (N.testbit (ms_attrs st) 13) eqn:B13.
    - destruct (N.testbit attrs 13) eqn:A13; [specialize (HRP eq_refl); discriminate|].
      rewrite TF3. unfold pt_map. rewrite (proj2 (region_ok_spec base len)) by (split; [|split]; [auto|auto|lia]).
      destruct (negb _); eexists; (split; [reflexivity|exact A3]).
    - destruct (_ =? _); [eexists; split; [reflexivity|exact HA]|].
      rewrite TF3. destruct (N.testbit attrs 13) eqn:A13.
      + unfold pt_unmap. rewrite (proj2 (region_ok_spec base len)) by (split; [|split]; [auto|auto|lia]).
        destruct (forallb _ _) eqn:FN.
        * exfalso. rewrite forallb_region in FN.
          assert (BP : in_region base len (base / UEFI_PAGE_SIZE) = true) by (apply in_region_addr; auto; unfold in_range; lia).
          pose proof (SY base t st Ht (U base ltac:(unfold in_range; lia))) as X.
          change (base / 4096) with (base / UEFI_PAGE_SIZE) in X. rewrite (FN _ BP), (expected_wanted st T) in X.
          unfold wanted in X. rewrite B13 in X. discriminate.
        * eexists. split; [reflexivity|exact A3].
      + unfold pt_map. rewrite (proj2 (region_ok_spec base len)) by (split; [|split]; [auto|auto|lia]).
        destruct (_ && _); eexists; (split; [reflexivity|exact A3]). }
  destruct SP as (s2 & SP & A2).
  destruct (set_paging_ok (with_gcd s g') t base len attrs s2 Ht (W t Ht) SP A2) as (G2 & D2 & _ & _ & _ & t' & T1 & T2 & T3).
  cbn [with_gcd sp_gcd] in G2.
  assert (RUN : spin_set_attributes s base len attrs = (SOk tt, notify s2 NSetAttributes)).
  { unfold spin_set_attributes, attrs_fuel. rewrite uadd_small by lia.
    remember (S (length (g_blocks (sp_gcd s)))) as f eqn:Ef. cbn [set_attrs_loop].
    destruct (N.leb_spec (base + len) base); [lia|]. rewrite GD. rewrite uadd_small by lia. rewrite MN.
    unfold usub. destruct (N.leb_spec base (base + len)); [|lia].
    replace (base + len - base) with len by lia.
    unfold swallow_set. rewrite HG.
    change (N.land attrs PAGING_MASK) with (N.land attrs page_bits).
    destruct (N.eqb_spec (N.land attrs page_bits) 0); [congruence|]. rewrite SP.
    subst f. cbn [set_attrs_loop]. destruct (N.leb_spec (base + len) (base + len)); [reflexivity|lia]. }
  exists (notify s2 NSetAttributes), t'. split; [exact RUN|]. split; [exact A2|]. split.
  { apply spin_ok_wf in OK0. destruct (set_attributes_keeps s base len attrs _ _ OK0 Hm RUN ltac:(discriminate) A2) as (K & _).
    destruct K as (_ & _ & _ & _ & _ & K). intros a. apply K, SY. }
  split; [exact T1|]. cbn [notify sp_gcd]. rewrite G2. split.
  - intros a Ha. destruct (RC1 a Ha) as (_ & ->). split.
    + eexists. split; [reflexivity|]. cbn. auto.
    + change (a / 4096) with (a / UEFI_PAGE_SIZE). rewrite T3, (proj2 (in_region_addr base len a P1 P2) Ha). reflexivity.
  - intros a Ha. split; [apply RC2, Ha|]. change (a / 4096) with (a / UEFI_PAGE_SIZE). rewrite T3.
    destruct (in_region base len (a / UEFI_PAGE_SIZE)) eqn:IR; [|reflexivity].
    apply (in_region_addr base len a P1 P2) in IR. contradiction.
Qed.

(** Allocated memory is mapped non-executable, in the map and in the page table, whatever was there before. *)
Theorem c53_allocate_not_executable : forall s t at_ ty shift len image device v s',
  spin_ok s -> sop_wf (SAllocate at_ ty shift len image device) -> N.testbit (sp_default s) 14 = true ->
  N.testbit (sp_default s) 13 = false ->
  sp_pt s = Some t -> spin_allocate s at_ ty shift len image device = (SOk v, s') -> sp_alarm s' = false ->
  exists t', sp_pt s' = Some t' /\
  forall a, in_range v len a ->
    exists st bits, state_at (g_blocks (sp_gcd s')) a = Some st /\ ms_alloc st = true /\ ms_type st = ty /\
      ms_image st = image /\ N.testbit (ms_attrs st) 14 = true /\
      t' (a / 4096) = Some bits /\ N.testbit bits 14 = true.
Proof.
  intros s t at_ ty shift len image device v s' OK Wo Hx Hnr Ht H HA. cbn [sop_wf] in Wo.
  apply spin_ok_wf in OK. pose proof OK as (HM & Hmax & W).
  assert (Hd : N.land (sp_default s) PAGING_MASK <> 0).
  { intros X. assert (Y : N.testbit (N.land (sp_default s) PAGING_MASK) 14 = true) by (rewrite N.land_spec, Hx; reflexivity).
    rewrite X in Y. discriminate. }
  unfold spin_allocate in H.
  destruct (allocate_memory_space (sp_gcd s) at_ ty shift len image device) as [q g'] eqn:E.
  destruct q as [v'|e|]; try discriminate.
  assert (K : keeps s (with_gcd s g')).
  { apply (gcd_call_keeps s (OpAllocate at_ ty shift len image device) (Ok v') g' OK Wo E ltac:(discriminate) I). }
  pose proof (gcd_step_map (sp_gcd s) (OpAllocate at_ ty shift len image device) (Ok v') g' HM Hmax Wo E) as P.
  cbn [step_post is_free call_range] in P.
  destruct P as [(X & _)|(F & M & b & l & st & st' & C & L & R & EF & (RC1 & RC2))]; [discriminate|].
  injection C as <- <-. cbn [call_effect] in EF. destruct EF as (_ & _ & NE & _ & _ & _ & Est').
  pose proof (same_frame_max _ _ F) as (F1 & _ & _).
  assert (GEN : forall a2 s2 q2, spin_set_attributes (with_gcd s g') v' len (N.lor (N.land a2 CACHE_ATTRIBUTE_MASK) (sp_default s)) = (q2, s2) ->
            sp_alarm s2 = false -> (q2 = SOk tt \/ q2 = SErr NotReady) ->
            exists t', sp_pt s2 = Some t' /\
            forall a, in_range v' len a ->
              exists st bits, state_at (g_blocks (sp_gcd s2)) a = Some st /\ ms_alloc st = true /\ ms_type st = ty /\
                ms_image st = image /\ N.testbit (ms_attrs st) 14 = true /\
                t' (a / 4096) = Some bits /\ N.testbit bits 14 = true).
  { intros a2 s2 q2 SA A2 Q2.
    set (at2 := N.lor (N.land a2 CACHE_ATTRIBUTE_MASK) (sp_default s)) in *.
    assert (B14 : N.testbit at2 14 = true) by (unfold at2; rewrite N.lor_spec, Hx; apply orb_true_r).
    assert (B13 : N.testbit at2 13 = false).
    { unfold at2. rewrite N.lor_spec, N.land_spec, Hnr. change (N.testbit CACHE_ATTRIBUTE_MASK 13) with false.
      rewrite andb_false_r. reflexivity. }
    destruct (set_attributes_keeps (with_gcd s g') v' len at2 q2 s2 (proj1 K)) as (K2 & SY2); auto.
    { unfold at2. apply land_lor_mask, Hd. }
    { destruct Q2; congruence. }
    assert (PT2 : sp_pt s2 <> None).
    { destruct K2 as (_ & _ & _ & _ & PN & _). intros X. apply PN in X. cbn in X. congruence. }
    destruct (sp_pt s2) as [t2|] eqn:Ht2; [|congruence]. exists t2. split; [reflexivity|].
    pose proof SA as SA'. unfold spin_set_attributes in SA'. rewrite uadd_small in SA' by lia.
    destruct (loop_attrs _ (with_gcd s g') v' (v' + len) _ _ _ _ M ltac:(cbn; rewrite F1; exact Hmax) ltac:(unfold word; lia) SA' Q2 A2) as (LA & _).
    intros a Ha. destruct (LA a Ha) as (s0 & L1 & L2 & L3). cbn [with_gcd sp_gcd] in L1.
    destruct (RC1 a Ha) as (_ & L0). rewrite L0 in L1. injection L1 as <-.
    pose proof (SY2 Q2 ltac:(lia) a Ha t2 _ Ht2 L3) as SX. rewrite expected_wanted in SX by exact L2.
    unfold wanted in SX. cbn [ms_attrs] in SX. rewrite B13 in SX.
    eexists. exists (N.land at2 PAGING_MASK). split; [exact L3|]. cbn [ms_alloc ms_type ms_image ms_attrs].
    subst st'. cbn [ms_alloc ms_type ms_image]. split; [reflexivity|]. split; [reflexivity|]. split; [reflexivity|]. split; [exact B14|].
    split; [exact SX|]. rewrite N.land_spec, B14. reflexivity. }
  destruct (get_memory_descriptor_for_address g' v') as [bl|e|]; [| |discriminate]; cbv zeta in H;
    match type of H with context[spin_set_attributes ?x ?y ?z ?w] =>
      destruct (spin_set_attributes x y z w) as [q2 s2] eqn:SA end;
    (assert (C : q2 = SOk tt \/ q2 = SErr NotReady);
     [destruct q2 as [[]|e2| |]; [left; reflexivity| |discriminate|discriminate];
      destruct e2; (right; reflexivity) || (exfalso; unfold assert_then in H; destruct (s_dbg s2);
         [discriminate|injection H as <- <-; discriminate])|]);
    (assert (HH : v' = v /\ s' = notify s2 NAllocate) by (destruct C as [-> | ->]; injection H as <- <-; auto));
    destruct HH as (-> & ->); exact (GEN _ _ _ SA HA C).
Qed.

(** Freeing memory allocated in one piece unmaps it and leaves it free and read-protected; nothing else changes. *)
Theorem c53_free_works : forall s t base len st,
  spin_ok s -> in_sync s -> sp_pt s = Some t -> sp_alarm s = false ->
  g_locked (sp_gcd s) = false -> 0 < len -> base + len <= g_max (sp_gcd s) -> page_aligned base -> page_aligned len ->
  uniform (sp_gcd s) base len st -> ms_alloc st = true -> ms_type st <> NonExistent ->
  N.testbit (ms_attrs st) 13 = false -> bits_subset (reset_attrs st) (ms_caps st) -> room (sp_gcd s) 4 ->
  (sp_faults s = [] \/ exists r, sp_faults s = None :: r) ->
  exists s' t', spin_free s base len = (SOk tt, s') /\ sp_alarm s' = false /\ sp_pt s' = Some t' /\
    (forall a, in_range base len a ->
       (exists st', state_at (g_blocks (sp_gcd s')) a = Some st' /\ ms_alloc st' = false /\ ms_type st' = ms_type st /\
                    N.testbit (ms_attrs st') 13 = true) /\
       t' (a / 4096) = None) /\
    (forall a, ~ in_range base len a ->
       state_at (g_blocks (sp_gcd s')) a = state_at (g_blocks (sp_gcd s)) a /\ t' (a / 4096) = t (a / 4096)).
Proof.
  intros s t base len st OK S Ht HA Lk Hl Hle P1 P2 U AL T B13 B R HF. apply spin_ok_wf in OK.
  destruct OK as (HM & Hmax & W).
  pose proof (free_succeeds false (sp_gcd s) base len st HM Hmax Lk Hl Hle P1 P2 U AL T B R) as FS.
  cbn [free_op gcd_step] in FS.
  destruct (free_memory_space (sp_gcd s) base len) as [q g'] eqn:E.
  destruct q as [u|e|]; cbn [lift_unit fst] in FS; try discriminate.
  pose proof (gcd_step_map (sp_gcd s) (OpFree base len) (Ok 0) g' HM Hmax ltac:(cbn; unfold word; lia)) as P.
  cbn [gcd_step] in P. rewrite E in P. specialize (P eq_refl). cbn [step_post is_free call_range] in P.
  destruct P as [(_ & X & _)|(F & M & b & l & st0 & st' & C1 & L & RR & EF & (RC1 & RC2))]; [congruence|].
  injection C1 as <- <-. cbn [call_effect] in EF. destruct EF as (_ & _ & _ & ->).
  assert (E0 : st0 = st).
  { destruct (RC1 base ltac:(unfold in_range; lia)) as (X & _). rewrite (U base ltac:(unfold in_range; lia)) in X. congruence. }
  subst st0. unfold spin_free. rewrite E. cbn [with_gcd sp_pt]. rewrite Ht.
  assert (TF : exists s1, take_fault (with_gcd s g') = (None, s1) /\ sp_alarm s1 = false /\ sp_gcd s1 = g').
  { unfold take_fault. cbn [with_gcd sp_faults]. destruct HF as [-> |(r & ->)]; eauto. }
  destruct TF as (s1 & TF & A1 & G1). rewrite TF. unfold pt_unmap.
  rewrite (proj2 (region_ok_spec base len)) by (split; [|split]; [auto|auto|lia]).
  destruct (forallb _ _) eqn:FN.
  { exfalso. rewrite forallb_region in FN.
    assert (BP : in_region base len (base / UEFI_PAGE_SIZE) = true) by (apply in_region_addr; auto; unfold in_range; lia).
    pose proof (S base t st Ht (U base ltac:(unfold in_range; lia))) as X.
    change (base / 4096) with (base / UEFI_PAGE_SIZE) in X. rewrite (FN _ BP), (expected_wanted st T) in X.
    unfold wanted in X. rewrite B13 in X. discriminate. }
  eexists. eexists. split; [reflexivity|]. cbn [notify with_pt sp_alarm sp_pt sp_gcd]. split; [exact A1|]. split; [reflexivity|].
  rewrite G1. split; intros a Ha; cbv beta; change (a / 4096) with (a / UEFI_PAGE_SIZE).
  - rewrite (proj2 (in_region_addr base len a P1 P2) Ha). split; [|reflexivity].
    destruct (RC1 a Ha) as (_ & ->). eexists. split; [reflexivity|]. cbn [ms_alloc ms_type ms_attrs].
    rewrite N.lor_spec. auto.
  - split; [apply RC2, Ha|].
    destruct (in_region base len (a / UEFI_PAGE_SIZE)) eqn:IR; [|reflexivity].
    apply (in_region_addr base len a P1 P2) in IR. contradiction.
Qed.

(** If the paging code fails, in a release build, the call reports it and the map is put back: nothing has changed. *)
Theorem c53_failure_rolled_back : forall s t base len st attrs e rest,
  spin_ok s -> in_sync s -> sp_pt s = Some t -> g_dbg (sp_gcd s) = false ->
  0 < len -> base + len <= g_max (sp_gcd s) -> page_aligned base -> page_aligned len ->
  uniform (sp_gcd s) base len st -> ms_type st <> NonExistent ->
  bits_subset attrs (ms_caps st) -> bits_subset (ms_attrs st) (ms_caps st) ->
  room (sp_gcd s) 4 -> N.land attrs page_bits <> 0 -> N.land attrs page_bits <> N.land (ms_attrs st) page_bits ->
  (N.testbit attrs 13 = true -> N.testbit (ms_attrs st) 13 = false) ->
  sp_faults s = Some e :: rest ->
  exists err s', spin_set_attributes s base len attrs = (SErr err, s') /\
    sp_pt s' = Some t /\ (forall a, state_at (g_blocks (sp_gcd s')) a = state_at (g_blocks (sp_gcd s)) a).
Proof.
  intros s t base len st attrs e rest OK S Ht D Hl Hle P1 P2 U T B B0 R Hm Hne HRP HF. apply spin_ok_wf in OK.
  destruct OK as (HM & Hmax & W).
  assert (R2 : room (sp_gcd s) 2) by (unfold room in *; lia).
  destruct (set_gcd_succeeds (sp_gcd s) base len attrs st HM Hmax Hl Hle P1 P2 U T B R2) as (g' & HG & F & M & CL & (RC1 & RC2)).
  destruct (uniform_turn (sp_gcd s) base len st HM Hmax Hl Hle U) as (d & GD & BB & MN & Ed & Bd).
  pose proof (same_frame_max _ _ F) as (F1 & F2 & F3).
  assert (SP : exists err s2, set_paging_attributes (with_gcd s g') base len attrs = (SErr err, s2) /\ err <> NotReady /\
                 sp_gcd s2 = g' /\ sp_pt s2 = Some t).
  { unfold set_paging_attributes. cbn [with_gcd sp_pt]. rewrite Ht. cbv zeta. rewrite rp_test.
    assert (Q : pt_query t base len = match expected_mapping st with Some a => Ok a | None => Err PtNoMapping end).
    { unfold pt_query. rewrite (proj2 (region_ok_spec base len)) by (split; [|split]; [auto|auto|lia]). cbv zeta.
      assert (EV : forall p, in_region base len p = true -> t p = expected_mapping st).
      { intros p Hp. assert (Hq : p * 4096 / UEFI_PAGE_SIZE = p) by (apply N.div_mul; discriminate).
        rewrite <- Hq in Hp. apply (in_region_addr base len (p * 4096) P1 P2) in Hp.
        rewrite <- Hq. exact (S (p * 4096) t st Ht (U _ Hp)). }
      assert (BP : in_region base len (base / UEFI_PAGE_SIZE) = true).
      { apply in_region_addr; auto. unfold in_range. lia. }
      rewrite (EV _ BP). rewrite (proj2 (forallb_region t base len (expected_mapping st))) by exact EV. reflexivity. }
    rewrite Q. rewrite (expected_wanted st T). unfold wanted.
    unfold take_fault. cbn [with_gcd sp_faults]. rewrite HF.
    assert (ND : s_dbg (Spin g' (Some t) rest (sp_default s) (sp_notices s) (sp_alarm s)) = false) by exact (eq_trans F2 D).
    cbn [with_gcd sp_gcd sp_pt sp_default sp_notices sp_alarm]. rewrite ?Ht.
    destruct (N.testbit (ms_attrs st) 13) eqn:B13.
    - destruct (N.testbit attrs 13) eqn:A13; [specialize (HRP eq_refl); discriminate|].
      unfold pt_map. rewrite (proj2 (region_ok_spec base len)) by (split; [|split]; [auto|auto|lia]).
      unfold assert_then. rewrite ND.
      destruct e; eexists; eexists; (split; [reflexivity|]); (split; [discriminate|]); auto.
    - change (N.land (ms_attrs st) PAGING_MASK) with (N.land (ms_attrs st) page_bits).
      assert (I : N.land (N.land (ms_attrs st) page_bits) PAGING_MASK = N.land (ms_attrs st) page_bits) by apply land_idem_mask.
      rewrite I. change (N.land attrs PAGING_MASK) with (N.land attrs page_bits).
      destruct (N.eqb_spec (N.land (ms_attrs st) page_bits) (N.land attrs page_bits)) as [EQ|_];
        [exfalso; apply Hne; symmetry; exact EQ|].
      destruct (N.testbit attrs 13) eqn:A13.
      + unfold pt_unmap. rewrite (proj2 (region_ok_spec base len)) by (split; [|split]; [auto|auto|lia]).
        unfold assert_then. rewrite ND. eexists; eexists; (split; [reflexivity|]); (split; [discriminate|]); auto.
      + unfold pt_map. rewrite (proj2 (region_ok_spec base len)) by (split; [|split]; [auto|auto|lia]).
        unfold assert_then. rewrite ND.
        destruct e; eexists; eexists; (split; [reflexivity|]); (split; [discriminate|]); auto. }
  destruct SP as (err & s2 & SP & NR & G2 & T2).
  set (st' := mkMs (ms_alloc st) (ms_type st) (ms_caps st) attrs (ms_image st) (ms_device st)) in *.
  assert (U' : uniform g' base len st') by (intros a Ha; apply RC1, Ha).
  assert (R' : room g' 2).
  { assert (X : g_cap g' = g_cap (sp_gcd s)) by (rewrite F; reflexivity). unfold room, clen in *. lia. }
  destruct (set_gcd_succeeds g' base len (ms_attrs st) st' M ltac:(rewrite F1; exact Hmax) Hl ltac:(rewrite F1; exact Hle) P1 P2 U' T B0 R')
    as (g2 & HG2 & _ & _ & _ & (RD1 & RD2)).
  exists err. exists (rollback (alarmed s2) base len (ms_attrs st)).
  split; [|split].
  - unfold spin_set_attributes, attrs_fuel. rewrite uadd_small by lia.
    remember (Datatypes.S (length (g_blocks (sp_gcd s)))) as f eqn:Ef. cbn [set_attrs_loop].
    destruct (N.leb_spec (base + len) base); [lia|]. rewrite GD. rewrite uadd_small by lia. rewrite MN.
    unfold usub. destruct (N.leb_spec base (base + len)); [|lia].
    replace (base + len - base) with len by lia.
    unfold swallow_set. rewrite HG.
    change (N.land attrs PAGING_MASK) with (N.land attrs page_bits).
    destruct (N.eqb_spec (N.land attrs page_bits) 0); [congruence|]. rewrite SP.
    unfold assert_then, s_dbg. rewrite G2, F2, D, Ed. destruct err; try reflexivity. congruence.
  - exact T2.
  - intros a. unfold rollback. cbn [with_gcd sp_gcd alarmed]. rewrite G2, HG2. cbn [snd].
    destruct (N.le_gt_cases base a) as [L1|L1]; [destruct (N.lt_ge_cases a (base + len)) as [L2|L2]|].
    + destruct (RD1 a ltac:(unfold in_range; lia)) as (_ & ->). destruct (RC1 a ltac:(unfold in_range; lia)) as (-> & _).
      destruct st. reflexivity.
    + rewrite RD2 by (unfold in_range; lia). apply RC2. unfold in_range. lia.
    + rewrite RD2 by (unfold in_range; lia). apply RC2. unfold in_range. lia.
Qed.

(** A request inside the address space always comes back. *)
Theorem c53_set_attributes_ends : forall s base len attrs,
  map_ok (sp_gcd s) -> 0 < g_max (sp_gcd s) < two64 -> base + len <= g_max (sp_gcd s) ->
  fst (spin_set_attributes s base len attrs) <> SHang.
Proof.
  intros s base len attrs HM Hmax He. unfold spin_set_attributes, attrs_fuel. rewrite uadd_small by lia.
  apply loop_ends; auto; [intros _|lia]. pose proof (ahead_le (g_blocks (sp_gcd s)) base). lia.
Qed.

(** One that reaches past its end does not, in a release build without page table (or when no mapping attribute is
    asked for): the loop never makes its way past the end, whatever the number of turns. *)
Theorem c53_set_attributes_ends_refuted : forall fuel s base len attrs,
  map_ok (sp_gcd s) -> 0 < g_max (sp_gcd s) < two64 -> g_dbg (sp_gcd s) = false ->
  base < base + len < two64 -> g_max (sp_gcd s) < base + len -> (sp_pt s = None \/ N.land attrs page_bits = 0) ->
  fst (set_attrs_loop fuel s base (base + len) attrs false) = SHang.
Proof. intros fuel s base len attrs HM Hmax D Hb Hg HP. apply loop_runs_on; auto; unfold word; lia. Qed.

(** ** A system to try it on *)
Definition boot_ops : list gcd_op :=
  [ OpAdd SystemMemory 0x100000 0x100000 0x2601F
  ; OpAdd SystemMemory 0x200000 0x10000 0x2601F
  ; OpAdd MemoryMappedIo 0x400000 0x2000 0x2601F
  ; OpAllocate (AtAddress 0x180000) SystemMemory 12 0x3000 5 None ].
Definition boot_gcd (dbg : bool) : gcd :=
  match gcd_run (gcd_new dbg 80 40 false) boot_ops with Some g => g | None => gcd_new dbg 80 40 false end.
Notation boot_init dbg def :=
  (init_paging (Spin (boot_gcd dbg) None [] def [] false) 0x180000 0x3000 [(0x1000, 0x1000, true); (0x2000, 0x1000, false)]).
Notation booted dbg := (snd (boot_init dbg 0x4000)).

Definition pages (s : spin) (l : list N) : list (option N) :=
  match sp_pt s with Some t => map t l | None => [] end.

Lemma boot_reachable : forall dbg, reachable dbg 80 40 false boot_ops (boot_gcd dbg).
Proof.
  intros dbg. split; [reflexivity|]. split; [repeat constructor; reflexivity|]. destruct dbg; vm_compute; reflexivity.
Qed.

Lemma boot_protected : forall dbg, free_memory_protected (boot_gcd dbg).
Proof.
  intros dbg a st H. apply state_in_block in H. destruct H as (b & Hb & <- & _).
  assert (F : forallb (fun b : mblock => ms_alloc (b_st b) || mt_eqb (ms_type (b_st b)) NonExistent
                        || mt_eqb (ms_type (b_st b)) MemoryMappedIo || mt_eqb (ms_type (b_st b)) Reserved
                        || N.testbit (ms_attrs (b_st b)) 13) (g_blocks (boot_gcd dbg)) = true)
    by (destruct dbg; vm_compute; reflexivity).
  rewrite forallb_forall in F. specialize (F b Hb). intros A B C D. rewrite A in F. cbn [orb] in F.
  destruct (ms_type (b_st b)); cbn [mt_eqb orb] in F; try congruence; exact F.
Qed.

Lemma boot_aligned : forall dbg, io_page_aligned (boot_gcd dbg).
Proof.
  intros dbg b Hb _ _.
  assert (F : forallb (fun b : mblock => (b_base b mod 4096 =? 0) && (b_len b mod 4096 =? 0)) (g_blocks (boot_gcd dbg)) = true)
    by (destruct dbg; vm_compute; reflexivity).
  rewrite forallb_forall in F. specialize (F b Hb). apply andb_prop in F. destruct F as (F1 & F2).
  unfold page_aligned, UEFI_PAGE_SIZE. change 0x1000 with 4096. split; now apply N.eqb_eq.
Qed.

Lemma boot_map_ok : forall dbg, map_ok (boot_gcd dbg) /\ 0 < g_max (boot_gcd dbg) < two64.
Proof.
  intros dbg. destruct (reachable_inv _ _ _ _ _ _ (boot_reachable dbg)) as ((Hmax & HI) & _).
  split; [|exact Hmax]. destruct HI as [H|(H & _)]; [exact H|]. exfalso. destruct dbg; vm_compute in H; discriminate.
Qed.

(** The boot succeeds, in both builds, with allocated memory mapped non-executable, the code section of the image
    read-only and executable, the I/O range mapped and the free memory and page 0 not. *)
Example boot_ok : forall dbg, fst (boot_init dbg 0x4000) = SOk tt /\ sp_alarm (booted dbg) = false /\
  pages (booted dbg) [0; 0x100; 0x14F; 0x150; 0x180; 0x181; 0x182; 0x183; 0x200; 0x400; 0x401; 0x402] =
    [None; Some 0x4008; Some 0x4008; None; Some 0x4008; Some 0x20008; Some 0x4008; None; None; Some 0x4000; Some 0x4000; None].
Proof. intros dbg. destruct dbg; repeat split; vm_compute; reflexivity. Qed.

Lemma boot_pair : forall dbg def, fst (boot_init dbg def) = SOk tt -> boot_init dbg def = (SOk tt, snd (boot_init dbg def)).
Proof. intros dbg def H. destruct (boot_init dbg def) as [r s]. cbn [fst snd] in *. now rewrite H. Qed.

Lemma boot_init_sync : forall dbg def s, boot_init dbg def = (SOk tt, s) -> sp_alarm s = false ->
  spin_ok s /\ in_sync s /\ sp_default s = def /\ sp_pt s <> None.
Proof.
  intros dbg def s H B. destruct (boot_map_ok dbg) as (M1 & M2).
  exact (c53_init (Spin (boot_gcd dbg) None [] def [] false) _ _ _ s M1 M2 (boot_protected dbg) (boot_aligned dbg) H B).
Qed.

Lemma boot_sync : forall dbg, spin_ok (booted dbg) /\ in_sync (booted dbg) /\ sp_default (booted dbg) = 0x4000 /\
  sp_pt (booted dbg) <> None.
Proof.
  intros dbg. destruct (boot_ok dbg) as (A & B & _).
  exact (boot_init_sync dbg 0x4000 _ (boot_pair dbg 0x4000 A) B).
Qed.

(** A history after boot: allocate, protect, free, add and remove, all of it careful, in both builds. *)
Definition life : list spin_op :=
  [ SAllocate (AtAddress 0x1A0000) SystemMemory 12 0x4000 9 None
  ; SSetAttributes 0x1A1000 0x1000 0x20008
  ; SAllocate (BottomUp None) SystemMemory 13 0x2000 9 (Some 4)
  ; SFree 0x1A0000 0x1000
  ; SAdd SystemMemory 0x600000 0x4000 0x2601F
  ; SSetAttributes 0x400000 0x1000 0x4001
  ; SRemove 0x401000 0x1000
  ; SLock
  ; SSetAttributes 0x1A2000 0x1000 0x4001
  ; SUnlock ].

(** [careful_run], computed. *)
Definition carefulb (s : spin) (o : spin_op) : bool :=
  match o with
  | SRemove b l => (b mod UEFI_PAGE_SIZE =? 0) && (l mod UEFI_PAGE_SIZE =? 0)
                   && match sp_faults s with [] | None :: _ => true | _ => false end
  | SFree _ _ => negb (g_locked (sp_gcd s))
  | SSetAttributes _ _ a => negb (N.land a page_bits =? 0)
  | _ => true
  end.

Fixpoint run_to (s : spin) (ops : list spin_op) : option spin :=
  match ops with
  | [] => Some s
  | o :: r => if carefulb s o
              then match spin_step s o with (SPanic, _) | (SHang, _) => None | (_, s') => run_to s' r end
              else None
  end.

Lemma carefulb_sound : forall s o, carefulb s o = true -> careful s o.
Proof.
  intros s o H. destruct o; cbn [carefulb careful] in *; auto.
  - apply andb_prop in H. destruct H as (H & H3). apply andb_prop in H. destruct H as (H1 & H2).
    split; [now apply N.eqb_eq|]. split; [now apply N.eqb_eq|].
    destruct (sp_faults s) as [|[e|] r]; [auto|discriminate|eauto].
  - now apply negb_true_iff in H.
  - apply negb_true_iff, N.eqb_neq in H. exact H.
Qed.

Lemma run_to_careful : forall ops s s', run_to s ops = Some s' -> careful_run s ops s'.
Proof.
  induction ops as [|o r IH]; intros s s' H; cbn [run_to] in H; [injection H as <-; constructor|].
  destruct (carefulb s o) eqn:C; [|discriminate]. destruct (spin_step s o) as [q s1] eqn:E.
  destruct q; try discriminate; (eapply CR_cons; [apply carefulb_sound; exact C|exact E|discriminate|discriminate|auto]).
Qed.

Example life_in_sync : forall dbg, exists s, careful_run (booted dbg) life s /\ in_sync s /\
  pages s [0x100; 0x1A0; 0x1A1; 0x1A2; 0x150; 0x151; 0x152; 0x400; 0x401; 0x600] =
    [Some 0x4008; None; Some 0x20008; Some 0x4001; Some 0x4008; Some 0x4008; None; Some 0x4001; None; None].
Proof.
  intros dbg. destruct (boot_sync dbg) as (A & B & C & _).
  assert (R : match run_to (booted dbg) life with
              | Some s => sp_alarm s = false /\
                  pages s [0x100; 0x1A0; 0x1A1; 0x1A2; 0x150; 0x151; 0x152; 0x400; 0x401; 0x600] =
    [Some 0x4008; None; Some 0x20008; Some 0x4001; Some 0x4008; Some 0x4008; None; Some 0x4001; None; None]
              | None => False
              end) by (destruct dbg; vm_compute; auto).
  generalize dependent (booted dbg). intros s0 A B C R.
  destruct (run_to s0 life) as [s|] eqn:E; [|destruct R]. destruct R as (R1 & R2). exists s.
  apply run_to_careful in E. split; [exact E|]. split; [|exact R2].
  refine (proj2 (c53_history _ _ _ E _ A _ B R1)).
  - repeat constructor; reflexivity.
  - rewrite C. discriminate.
Qed.

Lemma not_synced : forall s a t st, sp_pt s = Some t -> state_at (g_blocks (sp_gcd s)) a = Some st ->
  t (a / 4096) <> expected_mapping st -> ~ in_sync s.
Proof. intros s a t st H1 H2 H3 S. apply H3, (S a t st H1 H2). Qed.

Definition agrees (s : spin) (a : N) : bool :=
  match sp_pt s, state_at (g_blocks (sp_gcd s)) a with
  | Some t, Some st => opt_eqb (t (a / 4096)) (expected_mapping st)
  | _, _ => true
  end.

Lemma disagrees : forall s a, agrees s a = false -> ~ in_sync s.
Proof.
  intros s a H. unfold agrees in H. destruct (sp_pt s) as [t|] eqn:E1; [|discriminate].
  destruct (state_at (g_blocks (sp_gcd s)) a) as [st|] eqn:E2; [|discriminate].
  eapply not_synced; eauto. intros X. apply opt_eqb_eq in X. congruence.
Qed.

(** ** Where the two part *)

(** Release: attributes the memory is not capable of are refused by the map, the refusal is only logged, the page
    table changed all the same and success reported. *)
Theorem c53_refuted_unsupported_attributes : exists base len attrs,
  in_sync (booted false) /\ N.land attrs page_bits <> 0 /\
  fst (spin_set_attributes (booted false) base len attrs) = SOk tt /\
  g_blocks (sp_gcd (snd (spin_set_attributes (booted false) base len attrs))) = g_blocks (sp_gcd (booted false)) /\
  ~ in_sync (snd (spin_set_attributes (booted false) base len attrs)).
Proof.
  exists 0x180000, 0x1000, 0x104001. split; [apply boot_sync|]. split; [discriminate|].
  split; [vm_compute; reflexivity|]. split; [vm_compute; reflexivity|].
  apply (disagrees _ 0x180000). vm_compute. reflexivity.
Qed.

(** Both builds: attributes without a mapping bit (here: runtime) replace the recorded ones, read protection
    included, and leave the page table alone. *)
Theorem c53_refuted_plain_attributes : forall dbg, exists base len attrs,
  in_sync (booted dbg) /\ fst (spin_set_attributes (booted dbg) base len attrs) = SOk tt /\
  ~ in_sync (snd (spin_set_attributes (booted dbg) base len attrs)).
Proof.
  intros dbg. exists 0x1A0000, 0x1000, 0x8000000000000000. split; [apply boot_sync|].
  split; [destruct dbg; vm_compute; reflexivity|].
  apply (disagrees _ 0x1A0000). destruct dbg; vm_compute; reflexivity.
Qed.

(** Both builds: memory freed for its bucket keeper (ownership preserved) is recorded as read-protected but stays
    mapped. *)
Theorem c53_refuted_free_preserving : forall dbg, exists base len,
  in_sync (booted dbg) /\ fst (spin_free_preserving (booted dbg) base len) = SOk tt /\
  ~ in_sync (snd (spin_free_preserving (booted dbg) base len)).
Proof.
  intros dbg. exists 0x180000, 0x1000. split; [apply boot_sync|].
  split; [destruct dbg; vm_compute; reflexivity|].
  apply (disagrees _ 0x180000). destruct dbg; vm_compute; reflexivity.
Qed.

Lemma lock_sync : forall s, in_sync s -> in_sync (snd (spin_step s SLock)).
Proof. intros s H a t st. exact (H a t st). Qed.

(** Both builds: a free made while the map is locked frees nothing, reports success, and unmaps the pages, which are
    still allocated. *)
Theorem c53_refuted_free_locked : forall dbg, exists base len,
  let s := snd (spin_step (booted dbg) SLock) in
  in_sync s /\ fst (spin_free s base len) = SOk tt /\
  g_blocks (sp_gcd (snd (spin_free s base len))) = g_blocks (sp_gcd s) /\
  allocated_at (sp_gcd (snd (spin_free s base len))) base /\
  pages (snd (spin_free s base len)) [base / 4096] = [None] /\ ~ in_sync (snd (spin_free s base len)).
Proof.
  intros dbg. exists 0x181000, 0x1000. cbv zeta. split; [apply lock_sync, boot_sync|].
  split; [destruct dbg; vm_compute; reflexivity|]. split; [destruct dbg; vm_compute; reflexivity|].
  split; [unfold allocated_at; destruct dbg; vm_compute; eexists; split; reflexivity|].
  split; [destruct dbg; vm_compute; reflexivity|].
  apply (disagrees _ 0x181000). destruct dbg; vm_compute; reflexivity.
Qed.

(** Both builds: part of a page of I/O space can be removed; the page stays mapped. *)
Theorem c53_refuted_remove : forall dbg, exists base len,
  in_sync (booted dbg) /\ fst (spin_remove (booted dbg) base len) = SOk tt /\
  ~ in_sync (snd (spin_remove (booted dbg) base len)).
Proof.
  intros dbg. exists 0x400000, 0x800. split; [apply boot_sync|].
  split; [destruct dbg; vm_compute; reflexivity|].
  apply (disagrees _ 0x400000). destruct dbg; vm_compute; reflexivity.
Qed.

(** Both builds: without default attributes (compatibility mode), allocated memory that has no cacheability recorded
    is not mapped. *)
Theorem c53_refuted_compatibility : forall dbg,
  let s := snd (boot_init dbg 0) in
  let r := spin_allocate s (AtAddress 0x200000) SystemMemory 12 0x1000 9 None in
  in_sync s /\ fst r = SOk 0x200000 /\ pages (snd r) [0x200] = [None] /\ ~ in_sync (snd r).
Proof.
  intros dbg. cbv zeta. split.
  { assert (A : fst (boot_init dbg 0) = SOk tt) by (destruct dbg; vm_compute; reflexivity).
    assert (B : sp_alarm (snd (boot_init dbg 0)) = false) by (destruct dbg; vm_compute; reflexivity).
    exact (proj1 (proj2 (boot_init_sync dbg 0 _ (boot_pair dbg 0 A) B))). }
  split; [destruct dbg; vm_compute; reflexivity|]. split; [destruct dbg; vm_compute; reflexivity|].
  apply (disagrees _ 0x200000). destruct dbg; vm_compute; reflexivity.
Qed.

Lemma boot_uniform : forall dbg base len b,
  In b (g_blocks (sp_gcd (booted dbg))) -> b_base b <= base -> base + len <= b_end b -> uniform (sp_gcd (booted dbg)) base len (b_st b).
Proof.
  intros dbg base len b Hb H1 H2 a (H3 & H4). destruct (boot_sync dbg) as ((M & _) & _). destruct M as (T & _).
  apply in_split in Hb. destruct Hb as (l1 & l2 & E). rewrite E in *. eapply state_at_mid; eauto. lia.
Qed.

(** Debug: asking for read protection where it already is (free memory) stops the machine, although the map and the
    page table already agree with the request. *)
Theorem c53_protect_again_panics_refuted : exists base len st,
  uniform (sp_gcd (booted true)) base len st /\ ms_attrs st = 0x2008 /\ 0 < len /\ page_aligned base /\ page_aligned len /\
  fst (spin_set_attributes (booted true) base len (ms_attrs st)) = SPanic.
Proof.
  exists 0x1A0000, 0x1000, (mkMs false SystemMemory 0x800000000002601F 0x2008 0 0).
  split.
  { apply (boot_uniform true 0x1A0000 0x1000 (mkBlock 0x183000 0x7D000 (mkMs false SystemMemory 0x800000000002601F 0x2008 0 0)));
      [vm_compute; tauto|discriminate|discriminate]. }
  split; [reflexivity|]. split; [reflexivity|]. split; [reflexivity|]. split; [reflexivity|]. vm_compute. reflexivity.
Qed.

(** Debug: so does a boot with memory at address 0 that nobody has allocated (page 0 is unmapped at the end of
    [init_paging], and it was not mapped). *)
Theorem c53_boot_page_0_panics_refuted : exists ops g,
  reachable true 80 40 false ops g /\ free_memory_protected g /\ io_page_aligned g /\
  fst (init_paging (Spin g None [] 0x4000 [] false) 0x180000 0x3000 []) = SPanic.
Proof.
  set (ops := [ OpAdd SystemMemory 0x100000 0x100000 0x2601F; OpAdd SystemMemory 0 0x10000 0x2601F
              ; OpAllocate (AtAddress 0x180000) SystemMemory 12 0x3000 5 None ]).
  assert (E : exists g, gcd_run (gcd_new true 80 40 false) ops = Some g) by (eexists; vm_compute; reflexivity).
  destruct E as (g & E). exists ops, g.
  assert (R : reachable true 80 40 false ops g) by (split; [reflexivity|]; split; [repeat constructor; reflexivity|exact E]).
  split; [exact R|]. vm_compute in E. injection E as <-. clear R. split; [|split; [|vm_compute; reflexivity]].
  - intros a st H. apply state_in_block in H. destruct H as (b & Hb & <- & _).
    cbn [g_blocks In] in Hb. repeat (destruct Hb as [<-|Hb]; [cbn; congruence|]). destruct Hb.
  - intros b Hb. cbn [g_blocks In] in Hb.
    repeat (destruct Hb as [<-|Hb]; [cbn [b_st ms_type]; intros _ [X|X]; discriminate|]). destruct Hb.
Qed.

(** Release: through the DXE service, a length that wraps past 2^64 is reported as done and nothing is. *)
Theorem c53_wrapping_length_refuted : exists base len attrs,
  fst (dxe_set_attributes (booted false) base len attrs) = SOk tt /\ 0 < len < two64 /\ base + len = two64 /\
  sp_gcd (snd (dxe_set_attributes (booted false) base len attrs)) = sp_gcd (booted false).
Proof.
  exists 0x180000, (two64 - 0x180000), 0x4008. split; [vm_compute; reflexivity|].
  split; [split; reflexivity|]. split; [reflexivity|]. vm_compute. reflexivity.
Qed.

(** The hypotheses of [c53_set_attributes_ends_refuted] are met: the map before paging, 2 pages at the end of 40-bit space. *)
Example ends_refuted_case : forall fuel,
  fst (set_attrs_loop fuel (Spin (boot_gcd false) None [] 0x4000 [] false) (2 ^ 40 - 0x1000) (2 ^ 40 - 0x1000 + 0x2000) 0x4008 false) = SHang.
Proof.
  intros fuel. destruct (boot_map_ok false) as (A & B).
  apply c53_set_attributes_ends_refuted; auto; vm_compute; auto.
Qed.

(** The hypotheses of the theorems above about one call. *)
Example set_attributes_case : exists t st,
  sp_pt (booted true) = Some t /\ uniform (sp_gcd (booted true)) 0x180000 0x1000 st /\ ms_type st = SystemMemory /\
  bits_subset 0x20008 (ms_caps st) /\ room (sp_gcd (booted true)) 4 /\ ms_attrs st = 0x4008 /\ ms_alloc st = true /\
  bits_subset (reset_attrs st) (ms_caps st) /\ bits_subset (ms_attrs st) (ms_caps st).
Proof.
  destruct (boot_sync true) as (_ & _ & _ & X). destruct (sp_pt (booted true)) as [t|]; [|congruence].
  exists t, (mkMs true SystemMemory 0x800000000002601F 0x4008 5 0). split; [reflexivity|].
  split.
  { apply (boot_uniform true 0x180000 0x1000 (mkBlock 0x180000 0x1000 (mkMs true SystemMemory 0x800000000002601F 0x4008 5 0)));
      [vm_compute; tauto|discriminate|discriminate]. }
  split; [reflexivity|].
  assert (BS : forall a c, N.land a c = a -> bits_subset a c).
  { intros a c E i Hi. rewrite <- E, N.land_spec in Hi. apply andb_prop in Hi. tauto. }
  split; [apply BS; reflexivity|]. split; [vm_compute; discriminate|]. split; [reflexivity|]. split; [reflexivity|].
  split; apply BS; reflexivity.
Qed.

(** A fault of the paging code, in the sample: reported, nothing changed. *)
Example failure_case :
  let s := booted false in
  let s1 := Spin (sp_gcd s) (sp_pt s) [Some PtOutOfResources] (sp_default s) (sp_notices s) (sp_alarm s) in
  let r := spin_set_attributes s1 0x180000 0x1000 0x20008 in
  fst r = SErr OutOfResources /\ g_blocks (sp_gcd (snd r)) = g_blocks (sp_gcd s) /\ pages (snd r) [0x180] = [Some 0x4008].
Proof. vm_compute. auto. Qed.

Print Assumptions c53_init.
Print Assumptions c53_step.
Print Assumptions c53_history.
Print Assumptions c53_history_debug.
Print Assumptions c53_boot.
Print Assumptions c53_set_attributes_works.
Print Assumptions c53_allocate_not_executable.
Print Assumptions c53_free_works.
Print Assumptions c53_failure_rolled_back.
Print Assumptions c53_set_attributes_ends.
Print Assumptions c53_set_attributes_ends_refuted.
Print Assumptions c53_refuted_unsupported_attributes.
Print Assumptions c53_refuted_plain_attributes.
Print Assumptions c53_refuted_free_preserving.
Print Assumptions c53_refuted_free_locked.
Print Assumptions c53_refuted_remove.
Print Assumptions c53_refuted_compatibility.
Print Assumptions c53_protect_again_panics_refuted.
Print Assumptions c53_boot_page_0_panics_refuted.
Print Assumptions c53_wrapping_length_refuted.
