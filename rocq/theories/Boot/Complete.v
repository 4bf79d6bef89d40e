From Verif Require Import Base.Prelude Gcd.Blocks Gcd.Model Gcd.Spec Gcd.BlockProofs Gcd.Proofs Gcd.AllocProofs Gcd.Main Gcd.Hist
  Gcd.Complete Gcd.Spin Gcd.SpinSpec Gcd.SpinProofs Io.Model Io.Spec Io.Proofs Io.Main Boot.Model Boot.Spec Boot.Proofs.
Local Open Scope N_scope.

Lemma add_succeeds : forall g ty base len caps st, map_ok g -> 0 < g_max g < two64 -> 0 < len -> base + len <= g_max g ->
  uniform g base len st -> ms_alloc st = false -> ms_type st = NonExistent -> ty <> NonExistent -> room g 2 ->
  exists v g', add_memory_space g ty base len caps = (Ok v, g') /\ clen (g_blocks g') <= clen (g_blocks g) + 2.
Proof.
  intros g ty base len caps st HM Hmax Hl Hle HU HA HT HN HR.
  assert (TR : exists st', state_transition (TAdd ty (extend_caps ty caps) MEMORY_RP) st = Some st').
  { cbn [state_transition]. unfold add_transition. rewrite HA, HT. destruct ty; cbn; try congruence; eauto. }
  destruct TR as (st' & TR).
  destruct (sst_succeeds g base len _ st st' HM Hmax Hl Hle HU TR HR) as (k & g1 & x & C & L & Ex & ES & _ & _ & _ & CL).
  exists k, g1. split; [|exact CL]. unfold add_memory_space, add_checks.
  destruct (N.eqb_spec (g_max g) 0); [lia|]. destruct (N.eqb_spec len 0); [lia|].
  destruct (N.leb_spec two64 (base + len)); [lia|]. destruct (N.ltb_spec (g_max g) (base + len)); [lia|]. cbn [orb].
  assert (CP : (g_cap g =? 0) = false) by (destruct HM as (_ & _ & _ & ->); reflexivity). rewrite CP.
  unfold add_to_blocks. rewrite C, L, Ex, HT. cbn [mt_eqb negb]. rewrite ES. reflexivity.
Qed.

Lemma map_range_succeeds : forall s ty b e attr m, mem_ok s -> b < e -> e <= g_max (sp_gcd s) -> ty <> NonExistent ->
  (forall a, b <= a < e -> at_mem s a = Some initial_state) -> room (sp_gcd s) 4 ->
  (forall a, m = Some a -> page_aligned b /\ page_aligned (e - b) /\ N.land a PAGING_MASK <> 0 /\
                           bits_subset a (added_caps ty (get_capabilities ty attr))) ->
  exists s', map_range s ty (b, e) attr m = BOk s' /\ clen (g_blocks (sp_gcd s')) <= clen (g_blocks (sp_gcd s)) + 4 /\
    sp_alarm s' = sp_alarm s.
Proof.
  intros s ty b e attr m HO Hb He HN HU HR HA. pose proof HO as (HM & Hmax & HP). unfold map_range. cbn [fst snd].
  assert (BL : b + (e - b) = e) by lia.
  assert (UN : uniform (sp_gcd s) b (e - b) initial_state) by (intros a Ha; unfold in_range in Ha; apply HU; lia).
  destruct (add_succeeds (sp_gcd s) ty b (e - b) (get_capabilities ty attr) initial_state HM Hmax) as (v & g1 & E1 & C1);
    try reflexivity; try assumption; try lia; [unfold room, clen in *; lia|].
  pose proof (gcd_step_map (sp_gcd s) (OpAdd ty b (e - b) (get_capabilities ty attr)) (Ok v) g1 HM Hmax) as P.
  cbn [gcd_step op_wf] in P. pose proof (caps_word ty attr).
  specialize (P ltac:(unfold word in *; lia) E1). cbn [step_post is_free] in P.
  destruct P as [(F & _)|(F & M1 & b0 & l0 & st & st' & C & L & R & E & (RC1 & RC2))]; [discriminate|].
  cbn [call_range] in C. injection C as <- <-. pose proof (same_frame_max _ _ F) as (F1 & F2 & _).
  cbn [call_effect] in E. destruct E as (_ & _ & _ & E4).
  unfold spin_add. rewrite E1. destruct m as [m|].
  2: { eexists. split; [reflexivity|]. cbn [notify with_gcd sp_gcd sp_alarm]. split; [lia|reflexivity]. }
  destruct (HA m eq_refl) as (A1 & A2 & A3 & A4).
  set (sa := notify (with_gcd s g1) NAdd) in *.
  assert (UN1 : uniform (sp_gcd sa) b (e - b) st') by (intros a Ha; apply RC1; exact Ha).
  assert (HM1 : map_ok (sp_gcd sa)) by exact M1.
  assert (Hmax1 : 0 < g_max (sp_gcd sa) < two64) by (unfold sa; cbn [notify with_gcd sp_gcd]; rewrite F1; exact Hmax).
  assert (Le1 : b + (e - b) <= g_max (sp_gcd sa)) by (unfold sa; cbn [notify with_gcd sp_gcd]; rewrite F1; lia).
  destruct (uniform_turn (sp_gcd sa) b (e - b) st' HM1 Hmax1 ltac:(lia) Le1 UN1) as (d & D1 & D2 & D3 & D4 & D5).
  destruct (set_gcd_succeeds (sp_gcd sa) b (e - b) m st' HM1 Hmax1 ltac:(lia) Le1 A1 A2 UN1) as (g2 & S1 & S2 & S3 & S4 & S5).
  { subst st'. exact HN. } { subst st'. exact A4. }
  { unfold sa. cbn [notify with_gcd sp_gcd]. unfold room in *. unfold clen in C1. rewrite F. cbn [set_blocks g_cap].
    rewrite F in C1. cbn [set_blocks g_blocks] in *. lia. }
  exists (notify (with_gcd sa g2) NSetAttributes). split.
  - assert (Q : spin_set_attributes sa b (e - b) m = (SErr NotReady, notify (with_gcd sa g2) NSetAttributes)).
    { unfold spin_set_attributes. unfold uadd at 1. rewrite (proj2 (N.ltb_lt (b + (e - b)) two64)) by lia.
      unfold attrs_fuel. cbn [set_attrs_loop].
      rewrite (proj2 (N.leb_gt (b + (e - b)) b)) by lia. rewrite D1. unfold uadd.
      rewrite (proj2 (N.ltb_lt (b_base d + b_len d) two64)) by lia. rewrite D3.
      unfold usub. rewrite (proj2 (N.leb_le b (b + (e - b)))) by lia. replace (b + (e - b) - b) with (e - b) by lia.
      unfold swallow_set. rewrite S1. destruct (N.eqb_spec (N.land m PAGING_MASK) 0); [contradiction|].
      unfold set_paging_attributes. cbn [with_gcd sp_pt]. unfold sa. cbn [notify with_gcd sp_pt]. rewrite HP, N.leb_refl. reflexivity. }
    rewrite Q. reflexivity.
  - unfold sa in *. cbn [notify with_gcd sp_gcd sp_alarm] in *. split; [unfold clen in *; lia|reflexivity].
Qed.

Lemma valid_declared : forall d, protections_declared d -> attributes_valid (d_attr d) = true.
Proof.
  intros d (A & B & C & D & E). unfold attributes_valid.
  change 0x80 with (2 ^ 7). change 0x80000 with (2 ^ 19). change 0x100 with (2 ^ 8). change 0x200000 with (2 ^ 21).
  change 0x200 with (2 ^ 9). change 0x400000 with (2 ^ 22). change 0x40000 with (2 ^ 18). change 0x800000 with (2 ^ 23).
  change 0x1000000 with (2 ^ 24). rewrite !land_pow2, !negb_involutive. unfold attr_bit in *.
  repeat match goal with |- context [N.testbit ?x ?i] => destruct (N.testbit x i) eqn:? end; cbn; auto;
    repeat match goal with H : true = true -> _ |- _ => specialize (H eq_refl) end; congruence.
Qed.

Lemma page_sub : forall a b, page_aligned a -> page_aligned b -> page_aligned (a - b).
Proof.
  unfold page_aligned. change UEFI_PAGE_SIZE with 4096. intros a b A B.
  pose proof (N.div_mod a 4096 ltac:(lia)). pose proof (N.div_mod b 4096 ltac:(lia)).
  replace (a - b) with ((a / 4096 - b / 4096) * 4096) by lia. apply N.mod_mul. lia.
Qed.
Lemma page_add : forall a b, page_aligned a -> page_aligned b -> page_aligned (a + b).
Proof.
  unfold page_aligned. change UEFI_PAGE_SIZE with 4096. intros a b A B.
  rewrite N.add_mod, A, B by lia. reflexivity.
Qed.

Lemma chosen_mask : forall ty d, d_v2 d = true -> chosen_attributes ty d <> 0 -> N.land (chosen_attributes ty d) PAGING_MASK <> 0.
Proof.
  intros ty d V H X. apply H. unfold chosen_attributes in *. rewrite V in *.
  rewrite N.land_lor_distr_l in X. apply N.lor_eq_0_iff in X. destruct X as (X1 & X2).
  rewrite <- N.land_assoc in X1. change (N.land 0x101F PAGING_MASK) with 0x101F in X1. rewrite X1.
  destruct ty; try reflexivity. discriminate X2.
Qed.

(** One sensible descriptor whose addresses are nowhere. *)
Lemma ranges_succeed : forall l s ty attr m, mem_ok s -> ty <> NonExistent ->
  (forall r, In r l -> fst r < snd r /\ snd r <= g_max (sp_gcd s) /\
     (forall a, fst r <= a < snd r -> at_mem s a = Some initial_state) /\
     forall a, m = Some a -> page_aligned (fst r) /\ page_aligned (snd r)) ->
  (forall a, m = Some a -> N.land a PAGING_MASK <> 0 /\ bits_subset a (added_caps ty (get_capabilities ty attr))) ->
  ForallOrdPairs (fun r q => snd r <= fst q) l -> room (sp_gcd s) (4 * N.of_nat (length l)) ->
  exists s', map_ranges s ty l attr m = BOk s' /\
    clen (g_blocks (sp_gcd s')) <= clen (g_blocks (sp_gcd s)) + 4 * N.of_nat (length l) /\ sp_alarm s' = sp_alarm s.
Proof.
  induction l as [|[b e] l IH]; intros s ty attr m HO HN HR HA HP HRoom.
  - exists s. cbn. split; [reflexivity|]. split; [lia|reflexivity].
  - inversion HP as [|? ? HP1 HP2]; subst. destruct (HR (b, e) (or_introl eq_refl)) as (R1 & R2 & R3 & R4). cbn [fst snd] in *.
    cbn [length] in *.
    destruct (map_range_succeeds s ty b e attr m HO R1 R2 HN R3) as (s1 & E1 & C1 & A1).
    { unfold room in *. lia. }
    { intros a Ha. destruct (R4 a Ha) as (X1 & X2). split; [exact X1|]. split; [now apply page_sub|]. now apply HA. }
    assert (We : word e) by (destruct HO as (_ & ? & _); unfold word; lia).
    assert (Wb : word b) by (unfold word in *; lia).
    destruct (map_range_ok _ _ _ _ _ _ _ HO Wb We (caps_word _ _) E1) as (K1 & _ & _ & T1).
    destruct K1 as (K1 & K2 & K3 & K4).
    destruct (IH s1 ty attr m K1 HN) as (s2 & E2 & C2 & A2).
    + intros r I. destruct (HR r (or_intror I)) as (Q1 & Q2 & Q3 & Q4). rewrite K2. split; [exact Q1|]. split; [exact Q2|]. split; [|exact Q4].
      intros a Ha. rewrite <- (Q3 a Ha). destruct (T1 a) as [(X & _)|(_ & X)]; [|exact X].
      rewrite Forall_forall in HP1. specialize (HP1 r I). cbn [snd] in HP1. lia.
    + exact HA.
    + exact HP2.
    + assert (CAP : g_cap (sp_gcd s1) = g_cap (sp_gcd s)).
      { destruct K1 as ((_ & _ & _ & ->) & _). destruct HO as ((_ & _ & _ & ->) & _). reflexivity. }
      unfold room, clen in *. rewrite CAP. lia.
    + exists s2. cbn [map_ranges]. rewrite E1. split; [exact E2|]. split; [lia|congruence].
Qed.

Lemma split_length : forall a b, (length (split_ranges a b) <= 2)%nat.
Proof. intros a b. unfold split_ranges. destruct (remove_range_overlap a b) as [[|] [|]]; cbn; lia. Qed.

Lemma descriptor_succeeds : forall w lo hi d, world_ok w -> desc_wf d -> lo <= hi -> page_aligned lo -> page_aligned hi ->
  sensible (g_max (sp_gcd (w_mem w))) d -> (forall a, claims_memory lo hi a d -> nowhere w a) ->
  room (sp_gcd (w_mem w)) 8 ->
  exists w', add_descriptor w (lo, hi) d = BOk w' /\
    clen (g_blocks (sp_gcd (w_mem w'))) <= clen (g_blocks (sp_gcd (w_mem w))) + 8 /\ sp_alarm (w_mem w') = sp_alarm (w_mem w).
Proof.
  intros w lo hi d HO HD Hlh P1 P2 (S1 & S2 & S3 & S3' & S4) HC HR. pose proof HO as (M1 & M2 & M3 & _).
  unfold add_descriptor. rewrite (proj2 (N.ltb_lt _ _)) by lia.
  assert (DE : exists ty, decode w d = BOk (ty, w)).
  { unfold decode. destruct (N.eqb_spec (d_type d) 0); [eauto|]. destruct (N.eqb_spec (d_type d) 1), (N.eqb_spec (d_type d) 3); cbn [orb]; eauto.
    destruct (N.eqb_spec (d_type d) 4), (N.eqb_spec (d_type d) 5); cbn [orb]; eauto. exfalso. lia. }
  destruct DE as (ty & DE). rewrite DE. destruct (decode_ok w d ty w HO HD DE) as (_ & _ & _ & YM & _).
  destruct (mt_eqb ty NonExistent) eqn:EN.
  { exists w. split; [reflexivity|]. split; [lia|reflexivity]. }
  apply mt_neq in EN. specialize (YM EN). destruct (S4 ty YM) as (Q1 & Q2). rewrite (valid_declared d Q1).
  assert (HL := split_length (d_start d, d_start d + d_len d) (lo, hi)).
  destruct (ranges_succeed (split_ranges (d_start d, d_start d + d_len d) (lo, hi)) (w_mem w) ty (d_attr d) (requested_attributes ty d)
              (conj M1 (conj M2 M3)) EN) as (s' & E & C & A).
  - intros r I. pose proof (split_bounds _ _ _ _ _ I ltac:(lia)) as SB.
    assert (NE : fst r < snd r).
    { unfold split_ranges, remove_range_overlap in I. cbn [fst snd] in I.
      destruct (N.ltb_spec (d_start d) hi), (N.ltb_spec lo (d_start d + d_len d)); cbn [andb] in I; try (destruct I as [<-|[]]; cbn; lia).
      destruct (N.ltb_spec (d_start d) lo), (N.ltb_spec hi (d_start d + d_len d)); cbn [In] in I; try contradiction;
        repeat (destruct I as [<-|I]; [cbn; lia|]); contradiction. }
    split; [exact NE|]. split; [lia|]. split.
    + intros a Ha. apply HC. split; [|eauto]. unfold claims, in_desc.
      apply (split_covers (d_start d) (d_start d + d_len d) lo hi a ltac:(lia)). exists r. auto.
    + intros a Ha. unfold requested_attributes in Ha. destruct (d_v2 d) eqn:V; [|discriminate].
      destruct (Q2 eq_refl) as (A1 & A2 & _).
      assert (B1 : page_aligned (d_start d)) by exact A1.
      assert (B2 : page_aligned (d_start d + d_len d)) by (apply page_add; [exact A1|exact A2]).
      unfold split_ranges, remove_range_overlap in I. cbn [fst snd] in I.
      destruct (N.ltb_spec (d_start d) hi), (N.ltb_spec lo (d_start d + d_len d)); cbn [andb] in I; try (destruct I as [<-|[]]; cbn; auto; fail).
      destruct (N.ltb_spec (d_start d) lo), (N.ltb_spec hi (d_start d + d_len d)); cbn [In] in I; try contradiction;
        repeat (destruct I as [<-|I]; [cbn; auto; fail|]); contradiction.
  - intros a Ha. assert (X : a = chosen_attributes ty d) by (rewrite <- requested_chosen, Ha; reflexivity).
    assert (V : d_v2 d = true) by (unfold requested_attributes in Ha; destruct (d_v2 d); [reflexivity|discriminate]).
    destruct (Q2 V) as (_ & _ & A3 & A4). subst a. split; [now apply chosen_mask|]. apply A4, get_capabilities_spec.
  - unfold split_ranges, remove_range_overlap. cbn [fst snd].
    destruct ((d_start d <? hi) && (lo <? d_start d + d_len d)); [|repeat constructor].
    destruct (d_start d <? lo), (hi <? d_start d + d_len d); repeat constructor. cbn. exact Hlh.
  - unfold room in *. lia.
  - rewrite E. exists (World s' (w_io w)). cbn [w_mem]. split; [reflexivity|]. split; [|exact A]. unfold clen in *. lia.
Qed.

Lemma descriptors_succeed : forall l w lo hi, world_ok w -> Forall hob_wf l -> lo <= hi -> page_aligned lo -> page_aligned hi ->
  Forall (sensible (g_max (sp_gcd (w_mem w)))) (descriptors l) -> no_conflict lo hi (descriptors l) ->
  (forall a d, In d (descriptors l) -> claims_memory lo hi a d -> nowhere w a) ->
  room (sp_gcd (w_mem w)) (8 * N.of_nat (length (descriptors l))) ->
  exists w', add_descriptors w (lo, hi) l = BOk w' /\ sp_alarm (w_mem w') = sp_alarm (w_mem w).
Proof.
  induction l as [|h l IH]; intros w lo hi HO HF Hlh P1 P2 HS HC HN HR; cbn [add_descriptors].
  - eauto.
  - inversion HF as [|? ? HH HF']; subst.
    destruct h as [mb mt fb ft|m i|d|]; cbn [descriptors flat_map app] in *; try (eapply IH; eauto; fail).
    cbn [hob_wf] in HH. fold (descriptors l) in *. inversion HS as [|? ? HS1 HS2]; subst. inversion HC as [|? ? HC1 HC2]; subst.
    cbn [length] in HR.
    destruct (descriptor_succeeds w lo hi d HO HH Hlh P1 P2 HS1) as (w1 & E1 & C1 & A1).
    { intros a. apply HN. left. reflexivity. } { unfold room in *. lia. }
    rewrite E1. destruct (add_descriptor_ok _ _ _ _ _ HO HH E1) as (K1 & T1 & _). pose proof K1 as (K1' & K2 & _).
    assert (CAP : g_cap (sp_gcd (w_mem w1)) = g_cap (sp_gcd (w_mem w))).
    { destruct K1' as ((_ & _ & _ & ->) & _). destruct HO as ((_ & _ & _ & ->) & _). reflexivity. }
    destruct (IH w1 lo hi K1' HF' Hlh P1 P2) as (w2 & E2 & A2).
    + rewrite K2. exact HS2.
    + exact HC2.
    + intros a e I X. unfold nowhere. destruct (T1 a) as [(Y & _)|(_ & Y)].
      * exfalso. rewrite Forall_forall in HC1. apply (HC1 e I a). split; [exact Y|exact X].
      * rewrite Y. apply (HN a e (or_intror I) X).
    + unfold room, clen in *. rewrite CAP. lia.
    + exists w2. split; [exact E2|congruence].
Qed.
