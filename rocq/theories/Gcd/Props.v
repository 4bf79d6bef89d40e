(** Properties C01-C06 and C46-C47: the memory-space map. *)
From Verif Require Import Base.Prelude Align.Model Align.Proofs Align.Main Gcd.Blocks Gcd.Model Gcd.Spec Gcd.BlockProofs Gcd.Proofs Gcd.AllocProofs Gcd.Main Gcd.Hist Gcd.Complete.
Local Open Scope N_scope.

(** ** C01 *)

(** After any history the descriptors are absent (nothing was ever added) or tile [0, 2^bits) in order;
    neighbours always differ in state. *)
Theorem memory_map_tiles : forall dbg nodesz bits prio ops g,
  reachable dbg nodesz bits prio ops g ->
  exists l, get_memory_descriptors g = Ok l /\ (l = [] \/ (tiles 0 (2 ^ bits) l /\ merged l)).
Proof.
  intros dbg nodesz bits prio ops g HR. destruct (reachable_inv _ _ _ _ _ _ HR) as ((Hmax & HI) & E & _ & _).
  exists (g_blocks g). unfold get_memory_descriptors. destruct (N.eqb_spec (g_max g) 0); [lia|].
  split; [reflexivity|]. destruct HI as [(HT & HM & _)|(HB & _)]; [|auto]. right. rewrite <- E. auto.
Qed.
Print Assumptions memory_map_tiles.

(** Once there is a map it is never lost, and a successful add creates it. *)
Theorem memory_map_persists : forall dbg nodesz bits prio ops g o r g' ops' g'',
  reachable dbg nodesz bits prio ops g -> op_wf o -> gcd_step g o = (r, g') ->
  g_blocks g <> [] \/ (exists ty b l c v, o = OpAdd ty b l c /\ r = Ok v) ->
  r <> Panic -> Forall op_wf ops' -> gcd_run g' ops' = Some g'' -> tiles 0 (2 ^ bits) (g_blocks g'').
Proof.
  intros dbg nodesz bits prio ops g o r g' ops' g'' HR Hw HS HC Hp HW' HR'.
  destruct (reachable_inv _ _ _ _ _ _ HR) as (HI & E & _ & _).
  destruct (step_frame g o r g' HI Hw HS Hp) as (I1 & A1 & _ & _ & A4).
  assert (M1 : map_ok g').
  { destruct HI as (Hmax & [HM|HA]); [auto|]. destruct HC as [HC|(ty & b & l & c & v & -> & ->)].
    - destruct HA as (HA & _). contradiction.
    - cbn [gcd_step op_wf] in *.
      pose proof (first_add_step g ty b l c (Ok v) g' HA Hmax ltac:(tauto) ltac:(tauto) HS) as P.
      cbn [first_add_post] in P. tauto. }
  destruct (run_inv ops' g' g'' I1 HW' HR') as (_ & B1 & _ & _ & B4).
  destruct (B4 M1) as (HT & _). rewrite B1, A1, E in HT. exact HT.
Qed.
Print Assumptions memory_map_persists.

(** ** C02 *)

(** A successful call changes exactly its range, from one common old state to the specified new state. *)
Theorem memory_call_exact_effect : forall dbg nodesz bits prio ops g o v g',
  reachable dbg nodesz bits prio ops g -> g_blocks g <> [] -> op_wf o -> gcd_step g o = (Ok v, g') ->
  match o with
  | OpLock | OpUnlock => g_blocks g' = g_blocks g
  | _ => (is_free o = true /\ g_locked g = true /\ g_blocks g' = g_blocks g) \/
         exists base len s s', call_range o v = Some (base, len) /\ 0 < len /\ base + len <= 2 ^ bits /\
           call_effect o s s' /\ range_changed (g_blocks g) (g_blocks g') base len s s'
  end.
Proof.
  intros dbg nodesz bits prio ops g o v g' HR HB Hw HS.
  destruct (reachable_inv _ _ _ _ _ _ HR) as ((Hmax & HI) & E & _ & _).
  destruct HI as [HM|(HA & _)]; [|contradiction].
  pose proof (gcd_step_map g o (Ok v) g' HM Hmax Hw HS) as P. cbn [step_post] in P. rewrite E in P.
  destruct o; try (subst g'; reflexivity);
  (destruct P as [(P1 & P2 & P3)|(_ & _ & P)]; [left; subst; auto|right; exact P]).
Qed.
Print Assumptions memory_call_exact_effect.

(** The first successful add creates the map: it carves the map's own storage out of the added range. *)
Theorem first_add_exact_effect : forall dbg nodesz bits prio ops g ty base len caps v g',
  reachable dbg nodesz bits prio ops g -> g_blocks g = [] -> op_wf (OpAdd ty base len caps) ->
  gcd_step g (OpAdd ty base len caps) = (Ok v, g') ->
  ty = SystemMemory /\ MEMORY_BLOCK_SLICE_LEN * nodesz <= len /\ base + len <= 2 ^ bits /\
  tiles 0 (2 ^ bits) (g_blocks g') /\
  forall a, a < 2 ^ bits -> state_at (g_blocks g') a = Some (first_state g caps base len a).
Proof.
  intros dbg nodesz bits prio ops g ty base len caps v g' HR HB Hw HS.
  destruct (reachable_inv _ _ _ _ _ _ HR) as ((Hmax & HI) & E & _ & E2).
  destruct HI as [(HT & _)|HA]; [rewrite HB in HT; cbn in HT; lia|]. cbn [gcd_step op_wf] in *.
  pose proof (first_add_step g ty base len caps (Ok v) g' HA Hmax ltac:(tauto) ltac:(tauto) HS) as P.
  cbn [first_add_post] in P. destruct P as (P1 & P2 & P3 & P4 & _ & (_ & _ & P5 & _) & (P6 & _) & _ & P7).
  unfold slice_size in P2. rewrite E2 in P2. rewrite E in *. rewrite P5 in P6. auto 10.
Qed.
Print Assumptions first_add_exact_effect.

(** ** C03 *)

(** A failing call leaves the map alone, except for (1) the very first add, which may leave an initialised
    map behind, and (2), in a release build, a free that released the range but could not reset its
    attributes because the range lacks the read-protect capability or the map is nearly full.
    Missing for the full claim: those two cases, which are refuted below. *)
Theorem memory_call_failure_atomic_partial : forall dbg nodesz bits prio ops g o e g',
  reachable dbg nodesz bits prio ops g -> op_wf o -> gcd_step g o = (Err e, g') ->
  (is_add o = true /\ g_blocks g = []) \/
  g' = g \/
  (is_free o = true /\ dbg = false /\
   exists base len s, call_range o 0 = Some (base, len) /\ uniform g base len s /\ ms_alloc s = true /\
     (~ bits_subset MEMORY_RP (ms_caps s) \/ ~ room g 4)).
Proof.
  intros dbg nodesz bits prio ops g o e g' HR Hw HS.
  pose proof HR as (Hb & HW & HRun).
  destruct (reachable_inv _ _ _ _ _ _ HR) as ((Hmax & HI) & E & Ed & _).
  assert (AT : attrs_ok g).
  { apply (run_attrs ops _ g (new_inv dbg nodesz bits prio Hb) HW HRun). intros a s H; discriminate H. }
  destruct HI as [HM|HA].
  - pose proof (gcd_step_map g o (Err e) g' HM Hmax Hw HS) as P. cbn [step_post] in P.
    destruct P as [->|(Fr & Dg & b & l & s & C1 & C2 & C3 & C4 & C5 & _ & _ & (C6 & _))]; [auto|].
    right. right. split; [exact Fr|]. split; [congruence|]. exists b, l, s. split; [exact C1|].
    split; [intros a Ha; now apply C6|]. split; [exact C3|].
    destruct C5 as [C5|C5]; [left|right; unfold room, clen in *; lia].
    intros Hrp. apply C5. apply subset_lor; [exact Hrp|]. intros i Hi. rewrite N.land_spec in Hi.
    apply andb_true_iff in Hi. destruct (C6 b) as (X & _); [unfold in_range; lia|]. eapply (AT b s); eauto. tauto.
  - destruct (is_add o) eqn:EO.
    + left. split; [reflexivity|]. apply HA.
    + right. left. pose proof (gcd_step_absent g o (Err e) g' HA ltac:(lia) EO HS) as P. exact P.
Qed.
Print Assumptions memory_call_failure_atomic_partial.

(** The node size does not matter to the witnesses; 80 bytes makes the map's storage 80 pages. *)
Definition demo_new := gcd_new false 80 40 false.
Definition demo_ops : list gcd_op :=
  [ OpAdd SystemMemory 0 0x1000000 MEMORY_WB
  ; OpAllocate (BottomUp None) SystemMemory 12 0x4000 7 None
  ; OpAllocate (TopDown None) SystemMemory 12 0x2000 9 (Some 3)
  ; OpSetAttributes 0x50000 0x4000 (N.lor MEMORY_WB MEMORY_XP) ].

(** The free below reports an error but has freed the memory. *)
Theorem memory_call_failure_atomic_refuted_free : exists ops g o e g',
  reachable false 80 40 false ops g /\ op_wf o /\ gcd_step g o = (Err e, g') /\
  allocated_at g 0x50000 /\ ~ allocated_at g' 0x50000.
Proof.
  exists (demo_ops ++ [OpSetCapabilities 0x50000 0x4000 (N.lor MEMORY_WB MEMORY_XP)]).
  eexists. exists (OpFree 0x50000 0x4000). eexists. eexists. split; [|split; [|split; [|split]]].
  - split; [reflexivity|]. split; [repeat constructor; reflexivity|]. vm_compute. reflexivity.
  - split; reflexivity.
  - vm_compute. reflexivity.
  - eexists. split; [vm_compute; reflexivity|reflexivity].
  - intros (s & H1 & H2). vm_compute in H1. inversion H1; subst. discriminate H2.
Qed.
Print Assumptions memory_call_failure_atomic_refuted_free.

(** The first add below reports an error but memory now exists. *)
Theorem memory_call_failure_atomic_refuted_first_add : exists g o e g' s,
  reachable false 80 40 false [] g /\ op_wf o /\ gcd_step g o = (Err e, g') /\
  g_blocks g = [] /\ state_at (g_blocks g') 0x1000 = Some s /\ ms_type s = SystemMemory.
Proof.
  eexists. exists (OpAdd SystemMemory 0 0x1000000 0). eexists. eexists. eexists. split; [|split; [|split; [|split; [|split]]]].
  - split; [reflexivity|]. split; [constructor|]. vm_compute. reflexivity.
  - repeat split; reflexivity.
  - vm_compute. reflexivity.
  - reflexivity.
  - vm_compute. reflexivity.
  - reflexivity.
Qed.
Print Assumptions memory_call_failure_atomic_refuted_first_add.

(** ** C04 *)

(** A successful allocation took existing, unallocated memory of the requested type whose owner permits it,
    aligned and within the bound of the strategy, and it now belongs to the caller. *)
Theorem allocation_is_safe : forall dbg nodesz bits prio ops g at_ ty shift len image device v g',
  reachable dbg nodesz bits prio ops g -> op_wf (OpAllocate at_ ty shift len image device) ->
  gcd_step g (OpAllocate at_ ty shift len image device) = (Ok v, g') ->
  0 < len /\ v + len <= 2 ^ bits /\ aligned shift v /\ within_bound at_ v len /\ nonzero_result at_ v /\
  g_locked g = false /\
  exists s, ms_alloc s = false /\ ms_type s = ty /\ ty <> NonExistent /\ ty <> Unaccepted /\ image <> 0 /\
    match at_ with AtAddress _ => True | _ => ms_image s = 0 \/ ms_image s = image end /\
    (forall a, in_range v len a ->
       state_at (g_blocks g) a = Some s /\
       state_at (g_blocks g') a = Some (mkMs true ty (ms_caps s) (ms_attrs s) image
                                             match device with Some d => d | None => ms_device s end)) /\
    (forall a, ~ in_range v len a -> state_at (g_blocks g') a = state_at (g_blocks g) a).
Proof.
  intros dbg nodesz bits prio ops g at_ ty shift len image device v g' HR Hw HS.
  destruct (reachable_inv _ _ _ _ _ _ HR) as ((Hmax & HI) & E & Ed & _).
  destruct HI as [HM|HA].
  2: { pose proof (gcd_step_absent g (OpAllocate at_ ty shift len image device) (Ok v) g' HA ltac:(lia) eq_refl HS) as P. cbn in P.
       destruct P as [(P & _)|[(P & _)|(P & _)]]; discriminate. }
  cbn [gcd_step op_wf] in *. apply allocate_spec in HS; auto; try tauto. rewrite E in HS.
  destruct HS as (_ & _ & A & B & C & D & st & st' & F1 & F2 & F3 & F4 & F5).
  repeat (split; [assumption|]). exists st. cbn [call_effect] in F3.
  destruct F3 as (G1 & G2 & G3 & G4 & G5 & G6 & ->). auto 15.
Qed.
Print Assumptions allocation_is_safe.

(** Two successful allocations overlap only if a free call overlapping the first one came in between. *)
Theorem live_allocations_disjoint : forall dbg nodesz bits prio ops g
    at1 ty1 sh1 len1 im1 dv1 v1 g1 mid g2 at2 ty2 sh2 len2 im2 dv2 v2 g3,
  reachable dbg nodesz bits prio ops g ->
  op_wf (OpAllocate at1 ty1 sh1 len1 im1 dv1) -> op_wf (OpAllocate at2 ty2 sh2 len2 im2 dv2) -> Forall op_wf mid ->
  gcd_step g (OpAllocate at1 ty1 sh1 len1 im1 dv1) = (Ok v1, g1) ->
  gcd_run g1 mid = Some g2 ->
  (forall b l a, In (OpFree b l) mid \/ In (OpFreePreserving b l) mid -> in_range b l a -> ~ in_range v1 len1 a) ->
  gcd_step g2 (OpAllocate at2 ty2 sh2 len2 im2 dv2) = (Ok v2, g3) ->
  forall a, in_range v1 len1 a -> ~ in_range v2 len2 a.
Proof.
  intros dbg nodesz bits prio ops g at1 ty1 sh1 len1 im1 dv1 v1 g1 mid g2 at2 ty2 sh2 len2 im2 dv2 v2 g3
    HR W1 W2 Wm S1 SR Hf S2 a Ha1 Ha2.
  destruct (reachable_inv _ _ _ _ _ _ HR) as (HI & _).
  destruct (alloc_takes_free _ _ _ _ _ _ _ _ _ HI W1 S1 a Ha1) as (_ & A1).
  destruct (step_frame g _ _ g1 HI W1 S1 ltac:(discriminate)) as (I1 & _).
  destruct (run_inv mid g1 g2 I1 Wm SR) as (I2 & _).
  assert (A2 : allocated_at g2 a).
  { apply (run_keeps_alloc mid g1 g2 a I1 Wm SR); [|exact A1].
    intros o b l Ho Hfr Hc Hin. destruct o; try discriminate; cbn [call_range] in Hc; inversion Hc; subst;
    eapply Hf; eauto. }
  destruct (alloc_takes_free _ _ _ _ _ _ _ _ _ I2 W2 S2 a Ha2) as (N2 & _). contradiction.
Qed.
Print Assumptions live_allocations_disjoint.

(** Only memory that some earlier call added is ever allocated. *)
Theorem allocated_memory_was_added : forall dbg nodesz bits prio ops g a s,
  reachable dbg nodesz bits prio ops g -> state_at (g_blocks g) a = Some s -> ms_type s <> NonExistent ->
  exists ty b l c, In (OpAdd ty b l c) ops /\ in_range b l a.
Proof.
  intros dbg nodesz bits prio ops g a s (Hb & HW & HRun) S T.
  destruct (run_existing ops _ g a s (new_inv dbg nodesz bits prio Hb) HW HRun S T) as [(s0 & X & _)|X]; [|exact X].
  discriminate X.
Qed.
Print Assumptions allocated_memory_was_added.

(** ** C05 *)

(** Bottom-up: the result is the lowest feasible address; an error means there is none (or the map is full,
    or the request itself is malformed, or the services are locked). *)
Theorem bottom_up_lowest : forall dbg nodesz bits prio ops g max ty shift len image device r g',
  reachable dbg nodesz bits prio ops g -> op_wf (OpAllocate (BottomUp max) ty shift len image device) ->
  gcd_step g (OpAllocate (BottomUp max) ty shift len image device) = (r, g') ->
  let m := match max with Some a => a | None => u64_max end in
  match r with
  | Ok v => forall a, feasible_up g ty shift len image m a -> v <= a
  | Err _ => g_locked g = true \/ len = 0 \/ image = 0 \/ ~ room g 2 \/
             forall a, ~ feasible_up g ty shift len image m a
  | Panic => dbg = true
  end.
Proof.
  intros dbg nodesz bits prio ops g max ty shift len image device r g' HR Hw HS m.
  destruct (reachable_inv _ _ _ _ _ _ HR) as ((Hmax & HI) & E & Ed & _).
  destruct HI as [HM|HA].
  2: { pose proof (gcd_step_absent g (OpAllocate (BottomUp max) ty shift len image device) r g' HA ltac:(lia) eq_refl HS) as P.
       destruct r as [v|e|].
       - destruct P as [(P & _)|[(P & _)|(P & _)]]; discriminate.
       - destruct (N.eq_dec len 0) as [|Hl]; [auto|]. right. right. right. right.
         intros a ((_ & _ & s & _ & _ & _ & H) & _).
         specialize (H a ltac:(unfold in_range; lia)). rewrite (absent_none g a HA) in H. discriminate.
       - congruence. }
  cbn [gcd_step op_wf] in *. unfold allocate_memory_space in HS.
  destruct (g_locked g) eqn:EL.
  { unfold debug_fail in HS. destruct (g_dbg g) eqn:Eg; inversion HS; subst; auto. }
  destruct (N.eqb_spec (g_max g) 0); [lia|].
  destruct ((len =? 0) || (image =? 0) || mt_eqb ty Unaccepted) eqn:EA.
  { inversion HS; subst. destruct (N.eqb_spec len 0); [auto|]. destruct (N.eqb_spec image 0); [auto|]. cbn [orb] in EA.
    apply mt_eqb_spec in EA. subst ty. right. right. right. right. intros a ((_ & X & _) & _). congruence. }
  assert (Hmx : m < two64) by (unfold m; destruct max; [cbn in Hw; unfold word in *; tauto|reflexivity]).
  apply bottom_up_spec in HS; auto; [|lia|unfold word in *; tauto].
  destruct r as [v|e|].
  - apply HS.
  - destruct HS as (_ & _ & HS). destruct (N.le_gt_cases (clen (g_blocks g) + 2) (g_cap g)) as [Q|Q].
    + right. right. right. right. auto.
    + right. right. right. left. unfold room, clen in *. lia.
  - congruence.
Qed.
Print Assumptions bottom_up_lowest.

(** Top-down: the highest feasible address; with the 32-bit preference, the highest below 4 GiB if any. *)
Theorem top_down_highest : forall dbg nodesz bits prio ops g max ty shift len image device r g',
  reachable dbg nodesz bits prio ops g -> op_wf (OpAllocate (TopDown max) ty shift len image device) ->
  gcd_step g (OpAllocate (TopDown max) ty shift len image device) = (r, g') ->
  let m := match max with Some a => a | None => u64_max end in
  match r with
  | Ok v =>
      if g_prio32 g && (U32_MAX <? m) then
        room g 2 ->
        (forall a, feasible_down g ty shift len image U32_MAX a -> a <= v /\ v + len <= U32_MAX + 1) /\
        ((forall a, ~ feasible_down g ty shift len image U32_MAX a) ->
           forall a, feasible_down g ty shift len image m a -> a <= v)
      else forall a, feasible_down g ty shift len image m a -> a <= v
  | Err _ => g_locked g = true \/ len = 0 \/ image = 0 \/ ~ room g 2 \/
             forall a, ~ feasible_down g ty shift len image m a
  | Panic => dbg = true
  end.
Proof.
  intros dbg nodesz bits prio ops g max ty shift len image device r g' HR Hw HS m.
  destruct (reachable_inv _ _ _ _ _ _ HR) as ((Hmax & HI) & E & Ed & _).
  destruct HI as [HM|HA].
  2: { pose proof (gcd_step_absent g (OpAllocate (TopDown max) ty shift len image device) r g' HA ltac:(lia) eq_refl HS) as P.
       destruct r as [v|e|].
       - destruct P as [(P & _)|[(P & _)|(P & _)]]; discriminate.
       - destruct (N.eq_dec len 0) as [|Hl]; [auto|]. right. right. right. right.
         intros a ((_ & _ & s & _ & _ & _ & H) & _).
         specialize (H a ltac:(unfold in_range; lia)). rewrite (absent_none g a HA) in H. discriminate.
       - congruence. }
  cbn [gcd_step op_wf] in *. unfold allocate_memory_space in HS.
  destruct (g_locked g) eqn:EL.
  { unfold debug_fail in HS. destruct (g_dbg g) eqn:Eg; inversion HS; subst; auto. }
  destruct (N.eqb_spec (g_max g) 0); [lia|].
  destruct ((len =? 0) || (image =? 0) || mt_eqb ty Unaccepted) eqn:EA.
  { inversion HS; subst. destruct (N.eqb_spec len 0); [auto|]. destruct (N.eqb_spec image 0); [auto|]. cbn [orb] in EA.
    apply mt_eqb_spec in EA. subst ty. right. right. right. right. intros a ((_ & X & _) & _). congruence. }
  assert (Hmx : m < two64) by (unfold m; destruct max; [cbn in Hw; unfold word in *; tauto|reflexivity]).
  apply top_down_spec in HS; auto; [|lia|unfold word in *; tauto]. fold m in HS.
  destruct r as [v|e|].
  - destruct HS as (_ & _ & _ & _ & HS). exact HS.
  - destruct HS as (_ & _ & HS). destruct (N.le_gt_cases (clen (g_blocks g) + 2) (g_cap g)) as [Q|Q].
    + right. right. right. right. auto.
    + right. right. right. left. unfold room, clen in *. lia.
  - congruence.
Qed.
Print Assumptions top_down_highest.

(** The strict bound in [feasible_up] cannot be dropped: here a run ending exactly at the bound exists, in
    the stretch that starts at address 0, and the search reports an error. *)
Theorem bottom_up_bound_refuted : exists ops g e g' a,
  reachable false 80 40 false ops g /\
  gcd_step g (OpAllocate (BottomUp (Some 0x2000)) SystemMemory 12 0x1000 7 None) = (Err e, g') /\
  free_run g SystemMemory 7 a 0x1000 /\ aligned 12 a /\ UEFI_PAGE_SIZE <= a /\ a + 0x1000 <= 0x2000.
Proof.
  exists [OpAdd SystemMemory 0x10000000 0x1000000 MEMORY_WB; OpAdd SystemMemory 0 0x100000 MEMORY_WB].
  eexists. eexists. eexists. exists 0x1000. split; [|split; [|split]].
  - split; [reflexivity|]. split; [repeat constructor; reflexivity|]. vm_compute. reflexivity.
  - vm_compute. reflexivity.
  - split; [discriminate|]. split; [discriminate|]. eexists. split; [|split; [|split]].
    4: { intros x (H1 & H2). cbn [g_blocks]. cbn [state_at b_base b_len b_st b_end].
         unfold b_end. cbn [b_base b_len]. destruct ((0 <=? x) && (x <? 0 + 1048576)) eqn:Q; [reflexivity|lia]. }
    + reflexivity.
    + reflexivity.
    + left. reflexivity.
  - split; [reflexivity|]. split; vm_compute; discriminate.
Qed.
Print Assumptions bottom_up_bound_refuted.

(** ** C06 *)

(** A free succeeds exactly for a page-aligned range that lies in one allocated stretch whose capabilities
    allow the default attributes. *)
Theorem free_iff_allocated : forall dbg nodesz bits prio ops g (preserve : bool) base len,
  reachable dbg nodesz bits prio ops g -> g_locked g = false -> room g 4 -> word base -> word len ->
  (fst (gcd_step g (if preserve then OpFreePreserving base len else OpFree base len)) = Ok 0 <->
   0 < len /\ base + len <= 2 ^ bits /\ page_aligned base /\ page_aligned len /\
   exists s, uniform g base len s /\ ms_alloc s = true /\ ms_type s <> NonExistent /\
             bits_subset (reset_attrs s) (ms_caps s)).
Proof.
  intros dbg nodesz bits prio ops g p base len HR HL HRoom Hb Hl.
  destruct (reachable_inv _ _ _ _ _ _ HR) as ((Hmax & HI) & E & Ed & _).
  change (if p then OpFreePreserving base len else OpFree base len) with (free_op p base len).
  split.
  - destruct (gcd_step g (free_op p base len)) as [r g'] eqn:ES. cbn [fst]. intros ->.
    assert (Hw : op_wf (free_op p base len)) by (destruct p; split; assumption).
    destruct HI as [HM|HA].
    + pose proof (gcd_step_map g _ (Ok 0) g' HM Hmax Hw ES) as P. cbn [step_post] in P.
      assert (PA : page_aligned base /\ page_aligned len).
      { apply (check_range_aligned g). destruct p; cbn [free_op gcd_step] in ES;
          unfold free_memory_space, free_memory_space_preserving_ownership in ES; rewrite HL in ES;
          unfold free_memory_space_worker in ES;
          destruct (check_range g base len true) as [[]|e|]; [reflexivity|discriminate|discriminate|reflexivity|discriminate|discriminate]. }
      destruct p; cbn [free_op] in P; destruct P as [(_ & P & _)|(_ & _ & b & l & s & s' & C1 & C2 & C3 & C4 & C5)]; try congruence;
      cbn [call_range] in C1; inversion C1; subst b l; cbn [call_effect] in C4; rewrite E in C3;
      (split; [exact C2|]; split; [exact C3|]; split; [tauto|]; split; [tauto|]; exists s;
       split; [intros a Ha; now apply C5|]; tauto).
    + assert (NA : is_add (free_op p base len) = false) by (destruct p; reflexivity).
      pose proof (gcd_step_absent g _ (Ok 0) g' HA ltac:(lia) NA ES) as P. cbn in P.
      destruct P as [(P & _)|[(P & _)|(_ & P & _)]]; [destruct p; discriminate|destruct p; discriminate|congruence].
  - intros (A & B & C & D & s & S1 & S2 & S3 & S4). rewrite <- E in B.
    destruct HI as [HM|HA].
    + eapply free_succeeds; eauto.
    + specialize (S1 base ltac:(unfold in_range; lia)). rewrite (absent_none g base HA) in S1. discriminate.
Qed.
Print Assumptions free_iff_allocated.

(** Freed memory can be allocated again at the same place, by anyone. *)
Theorem free_then_reallocate : forall dbg nodesz bits prio ops g base len g' shift image device,
  reachable dbg nodesz bits prio ops g -> g_locked g = false -> word base -> word len ->
  gcd_step g (OpFree base len) = (Ok 0, g') -> room g' 2 ->
  image <> 0 -> shift < 64 -> base mod 2 ^ shift = 0 ->
  exists ty, (ty <> Unaccepted ->
    fst (gcd_step g' (OpAllocate (AtAddress base) ty shift len image device)) = Ok base) /\
  forall a, in_range base len a -> exists s, state_at (g_blocks g) a = Some s /\ ms_type s = ty.
Proof.
  intros dbg nodesz bits prio ops g base len g' shift image device HR HL Hb Hl HS HRoom Hi Hsh Ha.
  destruct (reachable_inv _ _ _ _ _ _ HR) as (HI & E & Ed & _).
  assert (Hw : op_wf (OpFree base len)) by (split; assumption).
  destruct (step_frame g _ _ g' HI Hw HS ltac:(discriminate)) as (_ & Emax & _).
  destruct HI as (Hmax & [HM|HA]).
  - pose proof (gcd_step_map g _ (Ok 0) g' HM Hmax Hw HS) as P. cbn [step_post] in P.
    destruct P as [(_ & P & _)|(F & M & b & l & s & s' & C1 & C2 & C3 & C4 & C5)]; [congruence|].
    cbn [call_range] in C1. inversion C1; subst b l. cbn [call_effect] in C4. destruct C4 as (D1 & D2 & _ & D3).
    exists (ms_type s). split.
    + intros D4. assert (HL' : g_locked g' = false) by (rewrite F; exact HL).
      eapply (allocate_at_succeeds g' (ms_type s) shift len image device base s'); eauto; try (subst s'; reflexivity).
      * lia.
      * lia.
      * intros a Hin. now apply C5.
    + intros a Hin. exists s. destruct C5 as (C5 & _). destruct (C5 a Hin). auto.
  - pose proof (gcd_step_absent g (OpFree base len) (Ok 0) g' HA ltac:(lia) eq_refl HS) as P. cbn in P.
    destruct P as [(P & _)|[(P & _)|(_ & P & _)]]; [discriminate|discriminate|congruence].
Qed.
Print Assumptions free_then_reallocate.

(** An allocation made at a page-aligned address and size can always be freed again at once. *)
Theorem allocate_then_free : forall dbg nodesz bits prio ops g at_ ty shift len image device v g',
  reachable dbg nodesz bits prio ops g -> op_wf (OpAllocate at_ ty shift len image device) ->
  gcd_step g (OpAllocate at_ ty shift len image device) = (Ok v, g') ->
  page_aligned v -> page_aligned len -> room g' 4 ->
  (forall s, state_at (g_blocks g) v = Some s -> bits_subset (reset_attrs s) (ms_caps s)) ->
  fst (gcd_step g' (OpFree v len)) = Ok 0.
Proof.
  intros dbg nodesz bits prio ops g at_ ty shift len image device v g' HR Hw HS P1 P2 HRoom HC.
  destruct (allocation_is_safe _ _ _ _ _ _ _ _ _ _ _ _ _ _ HR Hw HS)
    as (L0 & Le & _ & _ & _ & Lk & s & S1 & S2 & S3 & S4 & S5 & _ & S6 & S7).
  destruct (reachable_inv _ _ _ _ _ _ HR) as (HI & E & Ed & _).
  destruct (step_frame g _ _ g' HI Hw HS ltac:(discriminate)) as ((Hmax' & _) & Emax & _ & _ & HM').
  assert (HM : map_ok g).
  { destruct HI as (_ & [HM|HA]); [exact HM|]. destruct (S6 v) as (X & _); [unfold in_range; lia|].
    rewrite (absent_none g v HA) in X. discriminate. }
  assert (Lk' : g_locked g' = false).
  { pose proof (gcd_step_map g _ (Ok v) g' HM (proj1 HI) Hw HS) as P. cbn [step_post is_free] in P.
    destruct P as [(P & _)|(F & _)]; [discriminate|]. rewrite F. exact Lk. }
  apply (free_succeeds false g' v len (mkMs true ty (ms_caps s) (ms_attrs s) image
                                             match device with Some d => d | None => ms_device s end));
    auto; try lia.
  - intros a Ha. now apply S6.
  - apply (HC s). apply S6. unfold in_range. lia.
Qed.
Print Assumptions allocate_then_free.

(** ** C46 *)
Theorem gcd_release_never_panics : forall nodesz bits prio ops,
  bits < 64 -> Forall op_wf ops -> gcd_run (gcd_new false nodesz bits prio) ops <> None.
Proof. intros nodesz bits prio ops Hb HW. apply run_no_panic; auto. apply new_inv. exact Hb. Qed.
Print Assumptions gcd_release_never_panics.

(** In a debug build caller-supplied lengths can overflow an address. *)
Theorem gcd_debug_panic_refuted : exists ops, Forall op_wf ops /\ gcd_run (gcd_new true 80 40 false) ops = None.
Proof. exists [OpRemove 1 (two64 - 1)]. split; [repeat constructor|vm_compute; reflexivity]. Qed.
Print Assumptions gcd_debug_panic_refuted.

(** ** C47 *)
Theorem attributes_within_capabilities : forall dbg nodesz bits prio ops g a s,
  reachable dbg nodesz bits prio ops g -> state_at (g_blocks g) a = Some s -> ms_type s <> NonExistent ->
  forall i, N.testbit (ms_attrs s) i = true -> N.testbit (ms_caps s) i = true.
Proof.
  intros dbg nodesz bits prio ops g a s (Hb & HW & HRun) S T.
  assert (A0 : attrs_ok (gcd_new dbg nodesz bits prio)) by (intros x y H; discriminate H).
  exact (run_attrs ops _ g (new_inv dbg nodesz bits prio Hb) HW HRun A0 a s S T).
Qed.
Print Assumptions attributes_within_capabilities.

(** ** A concrete history that meets the hypotheses above *)
Example demo_reachable : exists g, reachable false 80 40 false demo_ops g /\
  map (fun b => (b_base b, b_len b, ms_alloc (b_st b), ms_type (b_st b), ms_image (b_st b))) (g_blocks g) =
  [ (0, 0x50000, true, SystemMemory, 6); (0x50000, 0x4000, true, SystemMemory, 7);
    (0x54000, 0xFAA000, false, SystemMemory, 0); (0xFFE000, 0x2000, true, SystemMemory, 9);
    (0x1000000, 2 ^ 40 - 0x1000000, false, NonExistent, 0) ].
Proof.
  eexists. split.
  - split; [reflexivity|]. split; [repeat constructor; reflexivity|]. vm_compute. reflexivity.
  - vm_compute. reflexivity.
Qed.

Example demo_free : exists g, gcd_run demo_new (demo_ops ++ [OpFree 0x50000 0x4000]) = Some g /\
  map (fun b => (b_base b, b_len b, ms_alloc (b_st b), ms_type (b_st b), ms_image (b_st b))) (g_blocks g) =
  [ (0, 0x50000, true, SystemMemory, 6); (0x50000, 0xFAE000, false, SystemMemory, 0);
    (0xFFE000, 0x2000, true, SystemMemory, 9);
    (0x1000000, 2 ^ 40 - 0x1000000, false, NonExistent, 0) ].
Proof. eexists. split; vm_compute; reflexivity. Qed.
