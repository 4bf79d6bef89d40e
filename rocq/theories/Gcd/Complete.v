(** When memory-space calls must succeed. *)
From Verif Require Import Base.Prelude Align.Model Align.Proofs Align.Main Gcd.Blocks Gcd.Model Gcd.Spec Gcd.BlockProofs Gcd.Proofs Gcd.AllocProofs Gcd.Main Gcd.Hist.
Local Open Scope N_scope.

Lemma sst_succeeds : forall g base len t s s', map_ok g -> 0 < g_max g < two64 -> 0 < len ->
  base + len <= g_max g -> uniform g base len s -> state_transition t s = Some s' -> room g 2 ->
  exists k g1 x, closest (g_blocks g) base = Some (b_base x) /\ lookup (g_blocks g) (b_base x) = Some x /\ b_st x = s /\
    g_sst g (b_base x) base len t = (Ok k, g1) /\ same_frame g g1 /\ map_ok g1 /\
    range_changed (g_blocks g) (g_blocks g1) base len s s' /\ clen (g_blocks g1) <= clen (g_blocks g) + 2.
Proof.
  intros g base len t s s' HM Hmax Hl Hle HU HT HR.
  destruct (closest_sst g base len t HM Hmax) as (pre & x & post & E & C & L & B1 & B2 & P); [unfold word; lia|unfold word; lia|].
  pose proof HM as (HTl & HG & _). rewrite E in HTl, HG. unfold uniform in HU. rewrite E in HU.
  destruct (uniform_fits pre x post 0 (g_max g) base len s HTl HG) as (HF & ->); auto; [lia|].
  destruct (g_sst g (b_base x) base len t) as [[k|e|] g1] eqn:ES.
  - exists k, g1, x. destruct (gsst_one_step g pre x post base len t k g1 HM E P) as ((F & M & _) & (s1 & A1 & A2) & _).
    assert (s1 = s') by congruence. subst s1. destruct P as (_ & P). cbn [sst_post] in P.
    repeat (split; [auto; fail|]). tauto.
  - exfalso. destruct P as (_ & P). destruct e; cbn [sst_post] in P.
    + destruct P as (_ & _ & P). congruence.
    + destruct P as (_ & P). contradiction.
    + destruct P as (_ & _ & _ & P). unfold room, clen in *. lia.
    + contradiction.
  - exfalso. destruct P as (_ & P). cbn [sst_post] in P. lia.
Qed.

Lemma page_mask : forall n, (N.land n UEFI_PAGE_MASK =? 0) = true <-> page_aligned n.
Proof.
  intros n. unfold page_aligned. change UEFI_PAGE_MASK with (2 ^ 12 - 1). change UEFI_PAGE_SIZE with (2 ^ 12).
  rewrite land_mask_mod. apply N.eqb_eq.
Qed.

Lemma check_range_good : forall g base len, 0 < g_max g < two64 -> 0 < len -> base + len <= g_max g ->
  page_aligned base -> page_aligned len -> check_range g base len true = Ok tt.
Proof.
  intros g base len Hmax Hl Hle H1 H2. unfold check_range. destruct (N.eqb_spec (g_max g) 0); [lia|].
  destruct (N.eqb_spec len 0); [lia|]. rewrite uadd_small by lia. cbn [bind].
  destruct (N.ltb_spec (g_max g) (base + len)); [lia|].
  apply page_mask in H1, H2. rewrite H1, H2. reflexivity.
Qed.

Lemma check_range_aligned : forall g base len, check_range g base len true = Ok tt ->
  page_aligned base /\ page_aligned len.
Proof.
  intros g base len. unfold check_range. destruct (g_max g =? 0); [discriminate|].
  destruct (len =? 0); [discriminate|]. destruct (uadd (g_dbg g) base len); cbn [bind]; try discriminate.
  destruct (g_max g <? a); [discriminate|]. rewrite <- !page_mask.
  destruct (N.land base UEFI_PAGE_MASK =? 0), (N.land len UEFI_PAGE_MASK =? 0); cbn; try discriminate. auto.
Qed.

Lemma free_succeeds : forall (p : bool) g base len s, map_ok g -> 0 < g_max g < two64 -> g_locked g = false ->
  0 < len -> base + len <= g_max g -> page_aligned base -> page_aligned len ->
  uniform g base len s -> ms_alloc s = true -> ms_type s <> NonExistent ->
  bits_subset (reset_attrs s) (ms_caps s) -> room g 4 ->
  fst (gcd_step g (free_op p base len)) = Ok 0.
Proof.
  intros p g base len s HM Hmax HL Hl Hle PA1 PA2 HU S1 S2 S3 HR.
  assert (G : fst (lift_unit (free_memory_space_worker g base len (if p then TFreePreservingOwnership else TFree))) = Ok 0).
  2: { destruct p; cbn [free_op gcd_step]; unfold free_memory_space, free_memory_space_preserving_ownership; rewrite HL; exact G. }
  unfold free_memory_space_worker. rewrite check_range_good by assumption.
  set (t := if p then TFreePreservingOwnership else TFree).
  assert (Ht : state_transition t s =
     Some (mkMs false (ms_type s) (ms_caps s) (ms_attrs s) (if p then ms_image s else 0) 0)).
  { assert (Ht : state_transition t s = free_transition s p) by (unfold t; destruct p; reflexivity).
    rewrite Ht. apply free_transition_some. auto. }
  destruct (sst_succeeds g base len t s _ HM Hmax Hl Hle HU Ht) as (k & g1 & x & C & L & Ex & ES & F & M & R & CL).
  { unfold room in *. lia. }
  rewrite C, ES.
  assert (Emax : g_max g1 = g_max g) by (rewrite F; reflexivity).
  assert (Ecap : g_cap g1 = g_cap g) by (rewrite F; reflexivity).
  destruct (descriptor_at g1 base M) as (d & D1 & D2 & D3 & D4); [lia|lia|]. rewrite D1.
  set (s1 := mkMs false (ms_type s) (ms_caps s) (ms_attrs s) (if p then ms_image s else 0) 0) in *.
  assert (Ed : b_st d = s1).
  { destruct R as (R & _). destruct (R base) as (_ & Y); [unfold in_range; lia|]. congruence. }
  rewrite Ed. change (N.lor MEMORY_RP (N.land (ms_attrs s1) CACHE_ATTRIBUTE_MASK)) with (reset_attrs s).
  assert (HU1 : uniform g1 base len s1) by (intros a Ha; destruct R as (R & _); now apply R).
  assert (Ht2 : state_transition (TSetAttributes (reset_attrs s)) s1 =
     Some (mkMs (ms_alloc s1) (ms_type s1) (ms_caps s1) (reset_attrs s) (ms_image s1) (ms_device s1))).
  { cbn [state_transition]. apply attribute_transition_some. unfold s1; cbn. auto. }
  unfold set_gcd_memory_attributes.
  destruct (sst_succeeds g1 base len (TSetAttributes (reset_attrs s)) s1 _ M ltac:(lia) Hl ltac:(lia) HU1 Ht2)
    as (k2 & g2 & x2 & C2 & L2 & Ex2 & ES2 & _).
  { unfold room, clen in *. lia. }
  rewrite C2, ES2. reflexivity.
Qed.

Lemma allocate_at_succeeds : forall g ty shift len image device base s, map_ok g -> 0 < g_max g < two64 ->
  g_locked g = false -> 0 < len -> base + len <= g_max g -> image <> 0 ->
  shift < 64 -> base mod 2 ^ shift = 0 ->
  uniform g base len s -> ms_alloc s = false -> ms_type s = ty -> ty <> NonExistent -> ty <> Unaccepted -> room g 2 ->
  fst (gcd_step g (OpAllocate (AtAddress base) ty shift len image device)) = Ok base.
Proof.
  intros g ty shift len image device base s HM Hmax HL Hl Hle Hi Hs Ha HU S1 S2 S3 S4 HR.
  cbn [gcd_step]. unfold allocate_memory_space. rewrite HL.
  destruct (N.eqb_spec (g_max g) 0); [lia|].
  assert (EU : mt_eqb ty Unaccepted = false).
  { destruct (mt_eqb ty Unaccepted) eqn:Q; [|reflexivity]. apply mt_eqb_spec in Q. contradiction. }
  rewrite EU. destruct (N.eqb_spec len 0); [lia|]. destruct (N.eqb_spec image 0); [lia|]. cbn [orb].
  rewrite uadd_small by lia. destruct (N.ltb_spec (g_max g) (base + len)); [lia|].
  unfold allocate_address. destruct (N.eqb_spec len 0); [lia|].
  assert (Ht : state_transition (TAllocate image device) s = Some (mkMs true (ms_type s) (ms_caps s) (ms_attrs s) image
                       (match device with Some d => d | None => ms_device s end))).
  { cbn [state_transition]. unfold allocate_transition. rewrite S1, S2, EU.
    destruct (mt_eqb ty NonExistent) eqn:Q; [apply mt_eqb_spec in Q; contradiction|]. reflexivity. }
  destruct (sst_succeeds g base len _ s _ HM Hmax Hl Hle HU Ht HR) as (k & g1 & x & C & L & Ex & ES & _).
  rewrite C, L, Ex, S2, mt_eqb_refl. unfold ushift_amount. destruct (N.ltb_spec shift 64); [|lia].
  assert (Em : mask_down base shift = base).
  { rewrite mask_down_eq by lia. pose proof (N.div_mod base (2 ^ shift)). pose proof (pow2_pos shift). lia. }
  rewrite Em, N.eqb_refl. cbn [andb negb]. rewrite ES. reflexivity.
Qed.
