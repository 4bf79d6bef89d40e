(** The services of [Attr.Model], from the loops. *)
From Verif Require Import Base.Prelude Align.Model Align.Proofs Align.Main Gcd.Blocks Gcd.Model Gcd.Spec Gcd.BlockProofs Gcd.Proofs Gcd.Spin
  Gcd.SpinSpec Gcd.SpinProofs Attr.Model Attr.Spec Attr.Proofs.
Local Open Scope N_scope.

Lemma mask_land : forall x, N.land x UEFI_PAGE_MASK = x mod 4096.
Proof. intros x. change UEFI_PAGE_MASK with (N.ones 12). rewrite N.land_ones. reflexivity. Qed.

Lemma misaligned_spec : forall b l, misaligned b l = false <-> page_aligned b /\ page_aligned l.
Proof.
  intros b l. unfold misaligned, page_aligned, UEFI_PAGE_SIZE. rewrite !mask_land, orb_false_iff, !negb_false_iff, !N.eqb_eq. reflexivity.
Qed.

Lemma access_bits : forall i, N.testbit MEMORY_ACCESS_MASK i = (i =? 13) || (i =? 14) || (i =? 17).
Proof.
  intros i. change MEMORY_ACCESS_MASK with (N.lor (N.lor (2 ^ 13) (2 ^ 14)) (2 ^ 17)).
  rewrite !N.lor_spec, !N.pow2_bits_eqb, (N.eqb_sym i 13), (N.eqb_sym i 14), (N.eqb_sym i 17). reflexivity.
Qed.

Lemma subset_land : forall a m, N.land a m = a <-> bits_subset a m.
Proof.
  intros a m. split.
  - intros H i Hi. rewrite <- H, N.land_spec in Hi. now apply andb_true_iff in Hi.
  - intros H. apply N.bits_inj. intros i. rewrite N.land_spec. specialize (H i).
    destruct (N.testbit a i), (N.testbit m i); auto.
Qed.

Lemma bad_request_spec : forall b l a, bad_request b l a = false <->
  page_aligned b /\ page_aligned l /\ a <> 0 /\ bits_subset a MEMORY_ACCESS_MASK.
Proof.
  intros b l a. unfold bad_request. rewrite !orb_false_iff, misaligned_spec, negb_false_iff, N.eqb_eq, N.eqb_neq, subset_land. tauto.
Qed.

Lemma paging_access : forall i, N.testbit MEMORY_ACCESS_MASK i = true -> N.testbit PAGING_MASK i = true.
Proof.
  intros i H. rewrite access_bits in H. rewrite !orb_true_iff, !N.eqb_eq in H. destruct H as [[H|H]|H]; subst; reflexivity.
Qed.

Lemma nonzero_bit : forall a, a <> 0 -> exists i, N.testbit a i = true.
Proof. intros a H. exists (N.log2 a). apply N.bit_log2, H. Qed.

Lemma keeps_paging : forall a b, a <> 0 -> bits_subset a MEMORY_ACCESS_MASK -> bits_subset a b -> N.land b PAGING_MASK <> 0.
Proof.
  intros a b Hn Hs Hb H. destruct (nonzero_bit a Hn) as (i & Hi).
  assert (N.testbit (N.land b PAGING_MASK) i = true) by (rewrite N.land_spec, (Hb i Hi), (paging_access i (Hs i Hi)); reflexivity).
  rewrite H, N.bits_0 in H0. discriminate.
Qed.

(** ** Walks over ranges *)
Lemma walk_range_exact : forall s b l f r s', map_ok (sp_gcd s) -> 0 < g_max (sp_gcd s) < two64 -> b + l < two64 ->
  walk_range s b l f = (Done r, s') -> sp_alarm s' = false -> r = WDone /\ rewritten s s' b l f.
Proof.
  intros s b l f r s' HM Hmax Hb H HA. unfold walk_range in H. rewrite uadd_small in H by exact Hb.
  assert (W : word (b + l)) by exact Hb.
  destruct (walk_exact _ _ _ _ _ _ _ HM Hmax W H HA) as (R & A & B). split; [exact R|]. split; [exact A|].
  intros x Hx. apply B. unfold in_range in Hx. lia.
Qed.

Lemma walk_range_each : forall s b l f r s', map_ok (sp_gcd s) -> 0 < g_max (sp_gcd s) < two64 ->
  walk_range s b l f = (r, s') -> r <> Crashed -> frame s s' /\ partly_rewritten s s' b l f.
Proof.
  intros s b l f r s' HM Hmax H Hp. unfold walk_range in H.
  destruct (uadd (s_dbg s) b l) as [e|?|] eqn:U; [|injection H as <- <-; congruence|injection H as <- <-; congruence].
  destruct (walk_frame_each _ _ _ _ _ _ _ HM Hmax (uadd_word _ _ _ _ U) H Hp) as (F & E). split; [exact F|].
  intros x. destruct (E x) as [Q|(Q1 & Q2)]; [left; exact Q|]. right. split; [|exact Q2].
  apply uadd_le in U. unfold in_range. lia.
Qed.

Lemma walk_range_keeps : forall s b l f r s', sp_wf s ->
  (forall x st, in_range b l x -> at_addr s x = Some st -> N.land (f (ms_attrs st)) PAGING_MASK <> 0) ->
  walk_range s b l f = (r, s') -> r <> Crashed -> sp_alarm s' = false -> keeps s s'.
Proof.
  intros s b l f r s' WF Hm H Hp HA. unfold walk_range in H.
  destruct (uadd (s_dbg s) b l) as [e|?|] eqn:U; [|injection H as <- <-; congruence|injection H as <- <-; congruence].
  eapply walk_keeps; [exact WF|eapply uadd_word; exact U| |exact H|exact Hp|exact HA].
  intros x st Hx. apply Hm. apply uadd_le in U. unfold in_range. lia.
Qed.

Lemma walk_range_debug : forall s b l f r s', map_ok (sp_gcd s) -> 0 < g_max (sp_gcd s) < two64 -> s_dbg s = true ->
  walk_range s b l f = (r, s') -> r <> Crashed -> sp_alarm s' = sp_alarm s.
Proof.
  intros s b l f r s' HM Hmax D H Hp. unfold walk_range in H.
  destruct (uadd (s_dbg s) b l) as [e|?|] eqn:U; [|injection H as <- <-; congruence|injection H as <- <-; congruence].
  eapply walk_debug; eauto.
Qed.

Lemma walk_range_ends : forall s b l f, map_ok (sp_gcd s) -> 0 < g_max (sp_gcd s) < two64 -> b + l <= g_max (sp_gcd s) ->
  fst (walk_range s b l f) <> Stuck.
Proof.
  intros s b l f HM Hmax Hb. unfold walk_range. rewrite uadd_small by lia. apply walk_ends; auto.
  - intros _. unfold attrs_fuel. pose proof (ahead_le (g_blocks (sp_gcd s)) b). lia.
  - unfold attrs_fuel. lia.
Qed.

(** ** Capabilities *)
Definition with_caps (st : mstate) (c : N) : mstate :=
  mkMs (ms_alloc st) (ms_type st) c (ms_attrs st) (ms_image st) (ms_device st).

Lemma caps_each : forall s b l c r s', sp_wf s -> word b -> word l ->
  spin_set_capabilities s b l c = (r, s') -> r <> SPanic ->
  keeps s s' /\ sp_alarm s' = sp_alarm s /\ r <> SHang /\
  (forall x, at_addr s' x = at_addr s x \/
     (in_range b l x /\ exists st, at_addr s x = Some st /\ at_addr s' x = Some (with_caps st c))).
Proof.
  intros s b l c r s' WF Wb Wl H Hp. pose proof WF as (HM & Hmax & W). unfold spin_set_capabilities in H.
  destruct (set_memory_space_capabilities (sp_gcd s) b l c) as [[u|e|] g'] eqn:E; injection H as <- <-; [| |congruence].
  - pose proof (set_capabilities_step (sp_gcd s) b l c (Ok 0) g' HM Hmax Wb Wl) as P. rewrite E in P.
    specialize (P eq_refl). cbn [step_post] in P.
    destruct P as [(F & _)|(F & M & b' & l' & st & st' & C & L & R & EF & (RC1 & RC2))]; [discriminate|].
    cbn [call_range] in C. injection C as <- <-. cbn [call_effect] in EF. destruct EF as (_ & _ & ->).
    pose proof (same_frame_max _ _ F) as (X1 & X2 & _).
    assert (EA : forall x, state_at (g_blocks g') x = state_at (g_blocks (sp_gcd s)) x \/
     (in_range b l x /\ exists st, state_at (g_blocks (sp_gcd s)) x = Some st /\ state_at (g_blocks g') x = Some (with_caps st c))).
    { intros x. destruct (N.le_gt_cases b x) as [Y|Y]; [destruct (N.lt_ge_cases x (b + l)) as [Z|Z]|].
      - right. split; [unfold in_range; lia|]. exists st. apply RC1. unfold in_range. lia.
      - left. apply RC2. unfold in_range. lia.
      - left. apply RC2. unfold in_range. lia. }
    split; [|split; [reflexivity|split; [discriminate|exact EA]]].
    apply keeps_notify, keeps_same_mapping; auto. intros a st' Hst.
    destruct (EA a) as [Q|(_ & st0 & Q1 & Q2)]; [rewrite Q in Hst; eauto|].
    exists st0. split; [exact Q1|]. rewrite Hst in Q2. injection Q2 as ->. reflexivity.
  - pose proof (set_capabilities_step (sp_gcd s) b l c (Err e) g' HM Hmax Wb Wl) as P. rewrite E in P.
    specialize (P eq_refl). cbn [step_post is_free] in P. destruct P as [->|(X & _)]; [|discriminate].
    split; [apply (keeps_refl s WF)|]. split; [reflexivity|]. split; [discriminate|]. intros x. left. reflexivity.
Qed.

(** ** Sections *)
Lemma rounded_up : forall size al n, size < 2 ^ 32 -> al < 2 ^ 32 -> align_up 32 size al = Ok n -> rounded size al n.
Proof.
  intros size al n Hs Ha H. pose proof (align_up_main 32 size al Hs Ha) as P. rewrite H in P.
  destruct P as ((k & ->) & _ & P1 & P2 & P3). unfold rounded. split; [|exact P1]. split; [exact P2|].
  destruct (N.lt_ge_cases n (size + 2 ^ k)) as [L|G]; [exact L|exfalso].
  pose proof (N.pow_nonzero 2 k ltac:(discriminate)) as NZ.
  specialize (P3 (n - 2 ^ k)). assert (n <= n - 2 ^ k); [|lia]. apply P3; [|lia].
  apply N.mod_divide in P1; [|exact NZ]. destruct P1 as (q & ->). apply N.mod_divide; [exact NZ|].
  exists (q - 1). rewrite N.mul_sub_distr_r. lia.
Qed.

Lemma rounded_unique : forall size al n m, rounded size al n -> rounded size al m -> n = m.
Proof.
  intros size al n m ((A1 & A2) & A3) ((B1 & B2) & B3).
  assert (NZ : al <> 0) by (intros ->; lia).
  apply N.mod_divide in A3, B3; try exact NZ. destruct A3 as (p & ->), B3 as (q & ->).
  assert (p = q); [|congruence]. nia.
Qed.

Lemma section_bits : forall ch a,
  protected_as ch (N.lor (section_attributes ch) (without a MEMORY_ACCESS_MASK)).
Proof.
  intros ch a. unfold protected_as, readable, executable, writable, may_execute, may_write, without.
  rewrite !N.lor_spec, !N.ldiff_spec, !access_bits.
  cbn [N.eqb Pos.eqb orb negb]. rewrite !andb_false_r, !orb_false_r.
  assert (B5 : (N.land ch CNT_CODE =? CNT_CODE) = N.testbit ch 5).
  { change CNT_CODE with (2 ^ 5). destruct (N.testbit ch 5) eqn:E.
    - apply N.eqb_eq, N.bits_inj. intros i. rewrite N.land_spec, !N.pow2_bits_eqb. destruct (N.eqb_spec 5 i) as [<-|]; [now rewrite E|apply andb_false_r].
    - apply N.eqb_neq. intros H. apply (f_equal (fun v => N.testbit v 5)) in H. rewrite N.land_spec, N.pow2_bits_true, E in H. discriminate. }
  assert (B30 : (N.land ch MEM_READ =? MEM_READ) = N.testbit ch 30).
  { change MEM_READ with (2 ^ 30). destruct (N.testbit ch 30) eqn:E.
    - apply N.eqb_eq, N.bits_inj. intros i. rewrite N.land_spec, !N.pow2_bits_eqb. destruct (N.eqb_spec 30 i) as [<-|]; [now rewrite E|apply andb_false_r].
    - apply N.eqb_neq. intros H. apply (f_equal (fun v => N.testbit v 30)) in H. rewrite N.land_spec, N.pow2_bits_true, E in H. discriminate. }
  assert (B31 : (N.land ch MEM_WRITE =? 0) = negb (N.testbit ch 31)).
  { change MEM_WRITE with (2 ^ 31). destruct (N.testbit ch 31) eqn:E.
    - apply N.eqb_neq. intros H. apply (f_equal (fun v => N.testbit v 31)) in H. rewrite N.land_spec, N.pow2_bits_true, E in H. discriminate.
    - apply N.eqb_eq, N.bits_inj. intros i. rewrite N.land_spec, N.pow2_bits_eqb, N.bits_0. destruct (N.eqb_spec 31 i) as [<-|]; [now rewrite E|apply andb_false_r]. }
  unfold section_attributes. rewrite B5, B30, B31.
  destruct (N.testbit ch 5), (N.testbit ch 30), (N.testbit ch 31); cbn; intuition congruence.
Qed.

Lemma section_paging : forall ch a, N.land (N.lor (section_attributes ch) a) PAGING_MASK <> 0.
Proof.
  intros ch a. apply (keeps_paging (section_attributes ch)).
  - unfold section_attributes. destruct (N.land ch CNT_CODE =? CNT_CODE), ((N.land ch MEM_WRITE =? 0) && (N.land ch MEM_READ =? MEM_READ)); discriminate.
  - apply subset_land. unfold section_attributes. destruct (N.land ch CNT_CODE =? CNT_CODE), ((N.land ch MEM_WRITE =? 0) && (N.land ch MEM_READ =? MEM_READ)); reflexivity.
  - intros i Hi. rewrite N.lor_spec, Hi. reflexivity.
Qed.

(** What one step over a section must achieve. *)
Definition section_step (ib al : N) (Good : section -> N -> Prop) (s : spin) (c : section) (s' : spin) : Prop :=
  keeps s s' /\
  (forall x, in_section ib al c x -> exists st st', at_addr s x = Some st /\ at_addr s' x = Some st' /\ same_memory st st' /\ Good c (ms_attrs st')) /\
  (forall x, ~ in_section ib al c x -> at_addr s' x = at_addr s x).

Lemma protect_ok : forall s ib al c s', sp_wf s -> al < 2 ^ 32 -> sc_size c < 2 ^ 32 -> ib + sc_va c + sc_size c + al < 2 ^ 64 ->
  protect_section s ib al c = (SOk tt, s') -> sp_alarm s' = false ->
  section_step ib al (fun c a => protected_as (sc_chars c) a) s c s'.
Proof.
  intros s ib al c s' WF Hal Hsz Hend H HA. pose proof WF as (HM & Hmax & _). change (2 ^ 64) with two64 in Hend. unfold protect_section in H.
  rewrite uadd_small in H by lia. set (base := ib + sc_va c) in *.
  destruct (descriptor_any (sp_gcd s) base HM ltac:(lia)) as (d & GD). rewrite GD in H.
  destruct (align_up 32 (sc_size c) al) as [n|?|] eqn:AL.
  2,3: unfold assert_then in H; destruct (s_dbg s); [discriminate|]; injection H as <-; discriminate.
  pose proof (rounded_up _ _ _ Hsz Hal AL) as RN. pose proof RN as ((R1 & R2) & _).
  destruct (spin_set_capabilities s base n (N.lor (section_attributes (sc_chars c)) (ms_caps (b_st d)))) as [rc s1] eqn:SC.
  assert (NP : rc <> SPanic) by (intros ->; discriminate).
  assert (Wb : word base) by (unfold word; lia). assert (Wn : word n) by (unfold word; lia).
  destruct (caps_each _ _ _ _ _ _ WF Wb Wn SC NP) as (K1 & A1 & _ & E1).
  pose proof K1 as (WF1 & X1 & _). pose proof WF1 as (HM1 & Hmax1 & _).
  set (a := N.lor (section_attributes (sc_chars c)) (without (ms_attrs (b_st d)) MEMORY_ACCESS_MASK)) in *.
  destruct (dxe_set_attributes s1 base n a) as [q s2] eqn:DX.
  assert (Q : q = SOk tt /\ s2 = s').
  { destruct rc; try discriminate; destruct q as [[]|er| |]; try discriminate; injection H as <-; auto;
      destruct (dxe_err _ _ _ _ _ _ HM1 Hmax1 DX); congruence. }
  destruct Q as (-> & ->). clear H.
  assert (EX : base + n < two64) by lia.
  destruct (dxe_exact _ _ _ _ _ HM1 Hmax1 EX DX HA) as (D1 & D2).
  assert (KE : keeps s1 s') by (eapply dxe_keeps; [exact WF1|apply section_paging|exact DX|discriminate|exact HA]).
  assert (SEC : forall x, in_section ib al c x <-> in_range base n x).
  { intros x. unfold in_section. split; [intros (m & Rm & Hm); now rewrite (rounded_unique _ _ _ _ RN Rm)|eauto]. }
  split; [eapply keeps_trans; eauto|]. split.
  - intros x Hx. apply SEC in Hx. destruct (D1 x Hx) as (st1 & P1 & P2 & P3).
    destruct (E1 x) as [Q|(_ & st & Q1 & Q2)].
    + exists st1, (with_attrs st1 a). rewrite <- Q. split; [exact P1|]. split; [exact P3|]. split; [unfold same_memory; auto|apply section_bits].
    + exists st, (with_attrs st1 a). split; [exact Q1|]. split; [exact P3|]. rewrite P1 in Q2. injection Q2 as ->.
      split; [unfold same_memory; auto|apply section_bits].
  - intros x Hx. rewrite D2 by (intros Y; apply Hx, SEC, Y). destruct (E1 x) as [Q|(Q & _)]; [exact Q|exfalso; apply Hx, SEC, Q].
Qed.

Lemma unprotect_bits : forall a, let b := N.lor (without a MEMORY_ATTRIBUTE_MASK) MEMORY_XP in writable b /\ ~ executable b.
Proof.
  intros a. cbv zeta. unfold writable, executable, without. rewrite !N.lor_spec, !N.ldiff_spec.
  change (N.testbit MEMORY_ATTRIBUTE_MASK 13) with true. change (N.testbit MEMORY_ATTRIBUTE_MASK 14) with true.
  change (N.testbit MEMORY_ATTRIBUTE_MASK 17) with true. rewrite !andb_false_r. cbn. intuition congruence.
Qed.

Lemma xp_paging : forall a, N.land (N.lor a MEMORY_XP) PAGING_MASK <> 0.
Proof.
  intros a. apply (keeps_paging MEMORY_XP); [discriminate|apply subset_land; reflexivity|].
  intros i Hi. rewrite N.lor_spec, Hi. apply orb_true_r.
Qed.

Lemma unprotect_ok : forall s ib al c s', sp_wf s -> al < 2 ^ 32 -> sc_size c < 2 ^ 32 -> ib + sc_va c + sc_size c + al < 2 ^ 64 ->
  unprotect_section s ib al c = (SOk tt, s') -> sp_alarm s' = false ->
  section_step ib al (fun _ a => writable a /\ ~ executable a) s c s'.
Proof.
  intros s ib al c s' WF Hal Hsz Hend H HA. pose proof WF as (HM & Hmax & _). change (2 ^ 64) with two64 in Hend. unfold unprotect_section in H.
  rewrite uadd_small in H by lia. set (base := ib + sc_va c) in *.
  destruct (descriptor_any (sp_gcd s) base HM ltac:(lia)) as (d & GD). rewrite GD in H.
  destruct (align_up 32 (sc_size c) al) as [n|?|] eqn:AL.
  2,3: unfold assert_then in H; destruct (s_dbg s); [discriminate|]; injection H as <-; discriminate.
  pose proof (rounded_up _ _ _ Hsz Hal AL) as RN. pose proof RN as ((R1 & R2) & _).
  set (a := N.lor (without (ms_attrs (b_st d)) MEMORY_ATTRIBUTE_MASK) MEMORY_XP) in *.
  destruct (dxe_set_attributes s base n a) as [q s2] eqn:DX.
  assert (Q : q = SOk tt /\ s2 = s').
  { destruct q as [[]|er| |]; try discriminate; injection H as <-; auto.
    destruct (dxe_err _ _ _ _ _ _ HM Hmax DX); congruence. }
  destruct Q as (-> & ->). clear H.
  assert (EX : base + n < two64) by lia.
  destruct (dxe_exact _ _ _ _ _ HM Hmax EX DX HA) as (D1 & D2).
  assert (KE : keeps s s') by (eapply dxe_keeps; [exact WF|apply xp_paging|exact DX|discriminate|exact HA]).
  assert (SEC : forall x, in_section ib al c x <-> in_range base n x).
  { intros x. unfold in_section. split; [intros (m & Rm & Hm); now rewrite (rounded_unique _ _ _ _ RN Rm)|eauto]. }
  split; [exact KE|]. split.
  - intros x Hx. apply SEC in Hx. destruct (D1 x Hx) as (st1 & P1 & P2 & P3).
    exists st1, (with_attrs st1 a). split; [exact P1|]. split; [exact P3|]. split; [unfold same_memory; auto|apply unprotect_bits].
  - intros x Hx. apply D2. intros Y. apply Hx, SEC, Y.
Qed.

Lemma protect_mono : forall s ib al c r s', protect_section s ib al c = (r, s') -> sp_alarm s = true -> sp_alarm s' = true.
Proof.
  intros s ib al c r s' H HA. unfold protect_section in H.
  destruct (uadd (s_dbg s) ib (sc_va c)) as [b|?|]; [|injection H as <- <-; exact HA|injection H as <- <-; exact HA].
  destruct (get_memory_descriptor_for_address (sp_gcd s) b) as [d|?|]; [|eapply assert_mono; eauto|injection H as <- <-; exact HA].
  destruct (align_up 32 (sc_size c) al) as [n|?|]; [|eapply assert_mono; eauto|eapply assert_mono; eauto].
  destruct (spin_set_capabilities s b n _) as [rc s1] eqn:SC.
  assert (A1 : sp_alarm s1 = true).
  { unfold spin_set_capabilities in SC. destruct (set_memory_space_capabilities _ _ _ _) as [[u|e|] g']; injection SC as <- <-; exact HA. }
  destruct rc; try (injection H as <- <-; exact A1);
    (destruct (dxe_set_attributes s1 b n _) as [q s2] eqn:DX; pose proof (dxe_mono _ _ _ _ _ _ DX A1); destruct q; injection H as <- <-; assumption).
Qed.

Lemma unprotect_mono : forall s ib al c r s', unprotect_section s ib al c = (r, s') -> sp_alarm s = true -> sp_alarm s' = true.
Proof.
  intros s ib al c r s' H HA. unfold unprotect_section in H.
  destruct (uadd (s_dbg s) ib (sc_va c)) as [b|?|]; [|injection H as <- <-; exact HA|injection H as <- <-; exact HA].
  destruct (get_memory_descriptor_for_address (sp_gcd s) b) as [d|?|]; [|injection H as <- <-; exact HA|injection H as <- <-; exact HA].
  destruct (align_up 32 (sc_size c) al) as [n|?|]; [|eapply assert_mono; eauto|eapply assert_mono; eauto].
  destruct (dxe_set_attributes s b n _) as [q s2] eqn:DX; pose proof (dxe_mono _ _ _ _ _ _ DX HA); destruct q; injection H as <- <-; assumption.
Qed.

Lemma each_mono : forall f, (forall s c r s', f s c = (r, s') -> sp_alarm s = true -> sp_alarm s' = true) ->
  forall l s r s', each_section f s l = (r, s') -> sp_alarm s = true -> sp_alarm s' = true.
Proof.
  intros f Hf. induction l as [|c l IH]; intros s r s' H HA; cbn [each_section] in H; [injection H as <- <-; exact HA|].
  destruct (f s c) as [q s1] eqn:E. pose proof (Hf _ _ _ _ E HA). destruct q; [eauto|injection H as <- <-; assumption|injection H as <- <-; assumption|injection H as <- <-; assumption].
Qed.

Lemma same_memory_trans : forall a b c, same_memory a b -> same_memory b c -> same_memory a c.
Proof. unfold same_memory. intros a b c (A1 & A2 & A3 & A4) (B1 & B2 & B3 & B4). repeat split; congruence. Qed.

(** [in_section] can be decided. *)
Lemma section_dec : forall ib al c x, in_section ib al c x \/ ~ in_section ib al c x.
Proof.
  intros ib al c x. destruct (N.eq_dec al 0) as [->|NZ].
  { right. intros (n & ((A & B) & _) & _). lia. }
  pose proof (N.mod_lt (sc_size c) al NZ) as ML. pose proof (N.div_mod (sc_size c) al NZ) as DM.
  set (n := if sc_size c mod al =? 0 then sc_size c else al * (sc_size c / al + 1)).
  assert (R : rounded (sc_size c) al n).
  { unfold rounded, n. destruct (N.eqb_spec (sc_size c mod al) 0) as [E|E]; [split; [lia|exact E]|].
    split; [rewrite N.mul_add_distr_l; lia|]. rewrite N.mul_comm. apply N.mod_mul, NZ. }
  destruct (N.le_gt_cases (ib + sc_va c) x) as [L|G]; [destruct (N.lt_ge_cases x (ib + sc_va c + n)) as [L2|G2]|].
  - left. exists n. split; [exact R|]. unfold in_range. lia.
  - right. intros (m & Rm & Hm). rewrite (rounded_unique _ _ _ _ Rm R) in Hm. unfold in_range in Hm. lia.
  - right. intros (m & Rm & Hm). unfold in_range in Hm. lia.
Qed.

Lemma each_ok : forall ib al Good f,
  (forall s c s', sp_wf s -> al < 2 ^ 32 -> sc_size c < 2 ^ 32 -> ib + sc_va c + sc_size c + al < 2 ^ 64 ->
     f s c = (SOk tt, s') -> sp_alarm s' = false -> section_step ib al Good s c s') ->
  (forall s c r s', f s c = (r, s') -> sp_alarm s = true -> sp_alarm s' = true) ->
  forall l s s', sp_wf s -> image_wf ib al l -> each_section f s l = (SOk tt, s') -> sp_alarm s' = false ->
  keeps s s' /\
  (forall x c, last_section ib al l x c -> exists st st', at_addr s x = Some st /\ at_addr s' x = Some st' /\ same_memory st st' /\ Good c (ms_attrs st')) /\
  (forall x, (forall c, In c l -> ~ in_section ib al c x) -> at_addr s' x = at_addr s x).
Proof.
  intros ib al Good f Hf Hm. induction l as [|c l IH]; intros s s' WF IW H HA; cbn [each_section] in H.
  { injection H as <-. split; [apply keeps_refl, WF|]. split; [intros x c (l1 & l2 & E & _); destruct l1; discriminate|auto]. }
  destruct (f s c) as [q s1] eqn:E. destruct q as [[]|?| |]; try discriminate.
  assert (A1 : sp_alarm s1 = false) by (eapply mono_false; [eapply each_mono; [exact Hm|exact H]|exact HA]).
  destruct IW as (I1 & I2). destruct (I2 c ltac:(left; reflexivity)) as (I3 & I4).
  destruct (Hf s c s1 WF I1 I3 I4 E A1) as (K1 & S1 & S2).
  destruct (IH s1 s') as (K2 & T1 & T2); auto; [apply K1|split; [exact I1|intros c' Hc'; apply I2; right; exact Hc']|].
  assert (SM : forall x st1, at_addr s1 x = Some st1 -> exists st, at_addr s x = Some st /\ same_memory st st1).
  { intros x st1 Hx. destruct (section_dec ib al c x) as [Y|Y].
    - destruct (S1 x Y) as (st & st' & P1 & P2 & P3 & _). exists st. split; [exact P1|]. assert (st1 = st') by congruence. subst. exact P3.
    - exists st1. rewrite <- (S2 x Y). split; [exact Hx|unfold same_memory; auto]. }
  split; [eapply keeps_trans; eauto|]. split.
  - intros x c0 (l1 & l2 & EQ & IN & NI). destruct l1 as [|c1 l1]; injection EQ as -> ->.
    + destruct (S1 x IN) as (st & st' & P1 & P2 & P3 & P4). exists st, st'. rewrite T2 by exact NI. auto.
    + destruct (T1 x c0) as (st1 & st' & P1 & P2 & P3 & P4); [exists l1, l2; auto|].
      destruct (SM x st1 P1) as (st & Q1 & Q2). exists st, st'. split; [exact Q1|]. split; [exact P2|].
      split; [eapply same_memory_trans; eauto|exact P4].
  - intros x NI. rewrite T2 by (intros c' Hc'; apply NI; right; exact Hc'). apply S2, NI. left. reflexivity.
Qed.

(** A debug build stops instead of raising the alarm. *)
Lemma protect_debug : forall s ib al c r s', sp_wf s -> s_dbg s = true -> al < 2 ^ 32 -> sc_size c < 2 ^ 32 ->
  ib + sc_va c + sc_size c + al < 2 ^ 64 ->
  protect_section s ib al c = (r, s') -> r <> SPanic -> frame s s' /\ sp_alarm s' = sp_alarm s.
Proof.
  intros s ib al c r s' WF D Hal Hsz Hend H Hp. pose proof WF as (HM & Hmax & _). change (2 ^ 64) with two64 in Hend. unfold protect_section in H.
  rewrite uadd_small in H by lia. set (base := ib + sc_va c) in *.
  destruct (descriptor_any (sp_gcd s) base HM ltac:(lia)) as (d & GD). rewrite GD in H.
  destruct (align_up 32 (sc_size c) al) as [n|?|] eqn:AL.
  2,3: unfold assert_then in H; rewrite D in H; injection H as <- <-; congruence.
  pose proof (rounded_up _ _ _ Hsz Hal AL) as RN. pose proof RN as ((R1 & R2) & _).
  destruct (spin_set_capabilities s base n _) as [rc s1] eqn:SC.
  assert (NP : rc <> SPanic) by (intros ->; injection H as <- <-; congruence).
  assert (Wb : word base) by (unfold word; lia). assert (Wn : word n) by (unfold word; lia).
  destruct (caps_each _ _ _ _ _ _ WF Wb Wn SC NP) as (K1 & A1 & NH & E1).
  pose proof K1 as (WF1 & X1 & X2 & _). pose proof WF1 as (HM1 & Hmax1 & _).
  assert (D1 : s_dbg s1 = true) by (unfold s_dbg in *; congruence).
  destruct (dxe_set_attributes s1 base n _) as [q s2] eqn:DX.
  assert (q <> SPanic /\ s2 = s').
  { destruct rc; try congruence; destruct q; injection H as <- <-; split; congruence. }
  destruct H0 as (NQ & ->).
  destruct (dxe_debug _ _ _ _ _ _ HM1 Hmax1 D1 DX NQ) as (A2 & _).
  destruct (dxe_each _ _ _ _ _ _ HM1 Hmax1 DX NQ) as (F2 & _).
  split; [|congruence]. eapply frame_trans; [|exact F2]. unfold frame. auto.
Qed.

(** ** Reading attributes *)
Lemma block_maximal : forall (l : list mblock) lo hi b, tiles lo hi l -> merged l -> In b l ->
  (0 < b_base b -> b_base b <> lo -> state_at l (b_base b - 1) <> Some (b_st b)) /\ (b_end b < hi -> state_at l (b_end b) <> Some (b_st b)).
Proof.
  induction l as [|c l IH]; intros lo hi b T M Hb; [destruct Hb|]. destruct T as (T1 & T2 & T3).
  assert (ML : merged l) by (destruct l; [exact I|exact (proj2 M)]).
  destruct Hb as [->|Hb].
  - split; [congruence|]. intros He. cbn [state_at]. unfold b_end in *.
    destruct (N.ltb_spec (b_base b + b_len b) (b_base b + b_len b)); [lia|]. rewrite andb_false_r.
    destruct l as [|d l]; [cbn in T3; lia|]. destruct M as (M1 & _). cbn [tiles] in T3. destruct T3 as (T3 & T4 & _).
    cbn [state_at]. unfold b_end. rewrite T3. destruct (N.leb_spec (b_base b + b_len b) (b_base b + b_len b)); [|lia].
    destruct (N.ltb_spec (b_base b + b_len b) (b_base b + b_len b + b_len d)); [|lia]. cbn [andb]. congruence.
  - destruct (IH _ _ _ T3 ML Hb) as (I1 & I2).
    assert (GE : b_end c <= b_base b).
    { clear - T3 Hb. revert T3. generalize (b_end c). induction l as [|d l IH]; intros lo T; [destruct Hb|]. destruct T as (A & B & C).
      destruct Hb as [->|Hb]; [lia|]. specialize (IH Hb _ C). unfold b_end in *. lia. }
    pose proof (block_bound _ _ _ _ T3 Hb).
    split.
    + intros P Q. cbn [state_at]. unfold b_end in *.
      destruct (N.eq_dec (b_base b) (b_base c + b_len c)) as [E|E].
      * destruct (N.leb_spec (b_base c) (b_base b - 1)); [|lia]. destruct (N.ltb_spec (b_base b - 1) (b_base c + b_len c)); [|lia]. cbn [andb].
        destruct l as [|d l]; [destruct Hb|]. cbn [tiles] in T3. destruct T3 as (T3 & T4 & T5).
        destruct Hb as [->|Hb]; [destruct M as (M1 & _); congruence|].
        exfalso. clear - T5 Hb E T3 T4. assert (b_end d <= b_base b).
        { revert T5. generalize (b_end d). induction l as [|x l IH]; intros lo T; [destruct Hb|]. destruct T as (A & B & C).
          destruct Hb as [->|Hb]; [lia|]. specialize (IH Hb _ C). unfold b_end in *. lia. }
        unfold b_end in *. lia.
      * destruct (N.ltb_spec (b_base b - 1) (b_base c + b_len c)); [lia|]. rewrite andb_false_r. apply I1; [exact P|congruence].
    + intros P. cbn [state_at]. unfold b_end in *. destruct (N.ltb_spec (b_base b + b_len b) (b_base c + b_len c)); [lia|].
      rewrite andb_false_r. apply I2, P.
Qed.

Lemma get_stretch : forall s base len st, map_ok (sp_gcd s) -> 0 < g_max (sp_gcd s) < two64 ->
  (exists d, get_memory_descriptor_for_address (sp_gcd s) base = Ok d /\ b_base d = base /\ b_len d = len /\ b_st d = st) <->
  stretch s base len st.
Proof.
  intros s base len st HM Hmax. pose proof HM as (HT & HG & _). split.
  - intros (d & GD & <- & <- & <-). destruct (N.lt_ge_cases (b_base d) (g_max (sp_gcd s))) as [Y|Y].
    + destruct (descriptor_at (sp_gcd s) (b_base d) HM ltac:(lia) Y) as (d' & GD' & Hin & Hd & _).
      rewrite GD in GD'. injection GD' as <-. destruct (block_maximal _ _ _ _ HT HG Hin) as (B1 & B2).
      pose proof (block_bound _ _ _ _ HT Hin) as BB. unfold b_end in *.
      split; [lia|]. split.
      { intros x Hx. unfold at_addr. apply in_split in Hin. destruct Hin as (l1 & l2 & E). rewrite E in *. eapply state_at_mid; eauto. }
      split.
      { destruct (N.eq_dec (b_base d) 0) as [E|E]; [left; exact E|right; apply B1; lia]. }
      destruct (N.lt_ge_cases (b_base d + b_len d) (g_max (sp_gcd s))) as [Z|Z]; [apply B2, Z|].
      unfold at_addr. rewrite past_end; [discriminate|exact HM|exact Z].
    + exfalso. destruct (descriptor_end (sp_gcd s) (b_base d) HM Hmax) as (d' & GD' & BE & DC). rewrite GD in GD'. injection GD' as <-.
      destruct DC as [((DC1 & _) & _)|(DC1 & DC2)]; [lia|].
      assert (Z : b_base d = g_max (sp_gcd s)) by lia.
      unfold get_memory_descriptor_for_address in GD. destruct (N.eqb_spec (g_max (sp_gcd s)) 0); [lia|].
      pose proof (closest_spec _ _ _ (b_base d) HT) as C.
      destruct (closest (g_blocks (sp_gcd s)) (b_base d)) as [k|].
      * destruct C as (pre & b & post & E & <- & K & A). rewrite E in *.
        pose proof (proj1 (tiles_mid _ _ _ _ _) HT) as TM.
        rewrite lookup_mid in GD by (destruct TM as (T1 & _); eapply tiles_below; eauto). injection GD as <-.
        destruct TM as (_ & TM & TM2). apply tiles_le in TM2. unfold b_end in TM2. lia.
      * destruct C as [C|C]; [lia|]. rewrite C in HT. cbn in HT. lia.
  - intros (L & U & S1 & S2).
    assert (LT : base < g_max (sp_gcd s)).
    { destruct (N.lt_ge_cases base (g_max (sp_gcd s))) as [Y|Y]; [exact Y|exfalso].
      specialize (U base ltac:(unfold in_range; lia)). unfold at_addr in U. rewrite past_end in U; [discriminate|exact HM|exact Y]. }
    destruct (descriptor_at (sp_gcd s) base HM ltac:(lia) LT) as (d & GD & Hin & Hd & SD). exists d. split; [exact GD|].
    destruct (block_maximal _ _ _ _ HT HG Hin) as (B1 & B2). pose proof (block_bound _ _ _ _ HT Hin) as BB.
    assert (IN : forall x, b_base d <= x < b_end d -> at_addr s x = Some (b_st d)).
    { intros x Hx. unfold at_addr. apply in_split in Hin. destruct Hin as (l1 & l2 & E). rewrite E in *. eapply state_at_mid; eauto. }
    assert (ST : b_st d = st).
    { pose proof (U base ltac:(unfold in_range; lia)). unfold at_addr in H. congruence. }
    assert (BS : b_base d = base).
    { destruct (N.eq_dec (b_base d) base) as [E|E]; [exact E|exfalso]. destruct S1 as [->|S1]; [lia|]. apply S1. rewrite <- ST. apply IN. lia. }
    split; [exact BS|]. split; [|exact ST]. unfold b_end in *.
    destruct (N.lt_trichotomy (b_len d) len) as [Z|[Z|Z]]; [exfalso|exact Z|exfalso].
    + specialize (U (b_base d + b_len d) ltac:(unfold in_range; lia)). unfold at_addr in U.
      apply B2; [|congruence]. destruct (N.lt_ge_cases (b_base d + b_len d) (g_max (sp_gcd s))) as [Y|Y]; [exact Y|].
      rewrite past_end in U; [discriminate|exact HM|exact Y].
    + apply S2. rewrite <- ST. apply IN. lia.
Qed.

(** ** Page attributes *)
Lemma cache_mask_bits : forall i, N.testbit CACHE_ATTRIBUTE_MASK i = true <-> is_cache_bit i.
Proof.
  intros i. unfold is_cache_bit. change CACHE_ATTRIBUTE_MASK with (N.lor (N.ones 5) (2 ^ 12)). rewrite N.lor_spec, N.pow2_bits_eqb, orb_true_iff, N.eqb_eq.
  destruct (N.le_gt_cases i 4) as [L|G].
  - rewrite N.ones_spec_low by lia. tauto.
  - rewrite N.ones_spec_high by lia. split; [intros [X|X]; [discriminate|right; lia]|intros [X|X]; [lia|right; lia]].
Qed.

Lemma access_mask_bits : forall i, N.testbit MEMORY_ACCESS_MASK i = true <-> is_access_bit i.
Proof. intros i. rewrite access_bits, !orb_true_iff, !N.eqb_eq. unfold is_access_bit. tauto. Qed.

Lemma cache_not_access : forall i, is_cache_bit i -> is_access_bit i -> False.
Proof. unfold is_cache_bit, is_access_bit. intros i. lia. Qed.

Lemma page_attributes_spec : forall acc cch ab cb a,
  access_attributes acc = Some ab ->
  (match cch, cb with Some c, Some b => cache_attributes c = Some b | None, None => True | _, _ => False end) ->
  set_as acc cch a (page_attributes ab cb a).
Proof.
  intros acc cch ab cb a HA HC.
  assert (AS : bits_subset ab MEMORY_ACCESS_MASK) by (apply subset_land; destruct acc; try discriminate HA; injection HA as <-; reflexivity).
  assert (CB : match cb with Some b => exists c, cch = Some c /\ b = 2 ^ cache_bit c | None => cch = None end).
  { destruct cch as [c|], cb as [b|]; try contradiction; [|reflexivity]. exists c. split; [reflexivity|]. destruct c; try discriminate HC; injection HC as <-; reflexivity. }
  assert (NACC : forall b0, (forall i, is_access_bit i -> N.testbit b0 i = N.testbit ab i) -> grants acc b0).
  { intros b0 B. unfold grants, readable, writable, executable. rewrite !B by (unfold is_access_bit; lia).
    destruct acc; try discriminate HA; injection HA as <-; vm_compute; intuition congruence. }
  assert (ACC : forall i, is_access_bit i -> N.testbit (page_attributes ab cb a) i = N.testbit ab i).
  { intros i Hi. pose proof (proj2 (access_mask_bits i) Hi) as MI. unfold page_attributes, without.
    destruct cb as [b|].
    - rewrite N.lor_spec, N.ldiff_spec, N.lor_spec, N.ldiff_spec, MI. cbn [negb]. rewrite andb_false_r. cbn [orb].
      assert (CM : N.testbit CACHE_ATTRIBUTE_MASK i = false).
      { destruct (N.testbit CACHE_ATTRIBUTE_MASK i) eqn:E; [|reflexivity]. apply cache_mask_bits in E. destruct (cache_not_access i E Hi). }
      rewrite CM. destruct CB as (c & _ & ->). rewrite N.pow2_bits_eqb.
      destruct (N.eqb_spec (cache_bit c) i) as [E|E].
      + exfalso. apply (cache_not_access i); [|exact Hi]. rewrite <- E. unfold is_cache_bit. destruct c; cbn; lia.
      + rewrite orb_false_r. cbn [negb]. now rewrite andb_true_r.
    - rewrite N.lor_spec, N.ldiff_spec, MI. cbn [negb]. now rewrite andb_false_r. }
  split; [apply NACC, ACC|]. split.
  - intros i Hi. pose proof (proj2 (cache_mask_bits i) Hi) as MI.
    assert (AM : N.testbit MEMORY_ACCESS_MASK i = false).
    { destruct (N.testbit MEMORY_ACCESS_MASK i) eqn:E; [|reflexivity]. apply access_mask_bits in E. destruct (cache_not_access i Hi E). }
    assert (AB : N.testbit ab i = false).
    { destruct (N.testbit ab i) eqn:E; [|reflexivity]. apply AS in E. congruence. }
    unfold page_attributes, without. destruct cb as [b|].
    + destruct CB as (c & -> & ->). rewrite N.lor_spec, N.ldiff_spec, MI. cbn [negb]. rewrite andb_false_r. cbn [orb].
      rewrite N.pow2_bits_eqb, N.eqb_eq. split; congruence.
    + subst cch. rewrite N.lor_spec, N.ldiff_spec, AM, AB. cbn [negb]. now rewrite andb_true_r, orb_false_r.
  - intros i NC NA.
    assert (AM : N.testbit MEMORY_ACCESS_MASK i = false).
    { destruct (N.testbit MEMORY_ACCESS_MASK i) eqn:E; [|reflexivity]. apply access_mask_bits in E. contradiction. }
    assert (CM : N.testbit CACHE_ATTRIBUTE_MASK i = false).
    { destruct (N.testbit CACHE_ATTRIBUTE_MASK i) eqn:E; [|reflexivity]. apply cache_mask_bits in E. contradiction. }
    assert (AB : N.testbit ab i = false).
    { destruct (N.testbit ab i) eqn:E; [|reflexivity]. apply AS in E. congruence. }
    unfold page_attributes, without. destruct cb as [b|].
    + destruct CB as (c & -> & ->). rewrite N.lor_spec, N.ldiff_spec, N.lor_spec, N.ldiff_spec, AM, CM, AB. cbn [negb].
      rewrite N.pow2_bits_eqb. destruct (N.eqb_spec (cache_bit c) i) as [E|E].
      * exfalso. apply NC. rewrite <- E. unfold is_cache_bit. destruct c; cbn; lia.
      * now rewrite !andb_true_r, !orb_false_r.
    + rewrite N.lor_spec, N.ldiff_spec, AM, AB. cbn [negb]. now rewrite andb_true_r, orb_false_r.
Qed.

Lemma page_paging : forall acc ab cb a, access_attributes acc = Some ab -> N.land (page_attributes ab cb a) PAGING_MASK <> 0.
Proof.
  intros acc ab cb a HA.
  apply (keeps_paging ab); [destruct acc; try discriminate HA; injection HA as <-; discriminate|apply subset_land; destruct acc; try discriminate HA; injection HA as <-; reflexivity|].
  intros i Hi. unfold page_attributes, without. destruct cb as [b|].
  - rewrite N.lor_spec, N.ldiff_spec, N.lor_spec, Hi, orb_true_r.
    destruct (N.testbit CACHE_ATTRIBUTE_MASK i) eqn:E; [|reflexivity]. exfalso.
    apply cache_mask_bits in E. apply (cache_not_access i E). apply access_mask_bits.
    assert (AS : bits_subset ab MEMORY_ACCESS_MASK) by (apply subset_land; destruct acc; try discriminate HA; injection HA as <-; reflexivity).
    apply AS, Hi.
  - rewrite N.lor_spec, Hi. apply orb_true_r.
Qed.

Lemma testbit_pow : forall a k, (N.land a (2 ^ k) =? 0) = negb (N.testbit a k).
Proof.
  intros a k. destruct (N.testbit a k) eqn:E.
  - apply N.eqb_neq. intros H. apply (f_equal (fun v => N.testbit v k)) in H. rewrite N.land_spec, N.pow2_bits_true, E in H. discriminate.
  - apply N.eqb_eq, N.bits_inj. intros i. rewrite N.land_spec, N.pow2_bits_eqb, N.bits_0. destruct (N.eqb_spec k i) as [<-|]; [now rewrite E|apply andb_false_r].
Qed.

Lemma access_of_spec : forall a, grants (access_of a) a.
Proof.
  intros a. unfold grants, readable, writable, executable, access_of.
  change MEMORY_RP with (2 ^ 13). rewrite testbit_pow, negb_involutive.
  assert (R : N.land a (N.lor MEMORY_RO MEMORY_XP) =
    N.lor (if N.testbit a 17 then MEMORY_RO else 0) (if N.testbit a 14 then MEMORY_XP else 0)).
  { change MEMORY_RO with (2 ^ 17). change MEMORY_XP with (2 ^ 14). apply N.bits_inj. intros i.
    rewrite N.land_spec, !N.lor_spec, !N.pow2_bits_eqb.
    destruct (N.testbit a 17) eqn:E1, (N.testbit a 14) eqn:E2; rewrite ?N.pow2_bits_eqb, ?N.bits_0;
      destruct (N.eqb_spec 17 i), (N.eqb_spec 14 i); subst; rewrite ?E1, ?E2, ?andb_false_r; try reflexivity; discriminate. }
  rewrite R. destruct (N.testbit a 13), (N.testbit a 14), (N.testbit a 17); cbn; intuition congruence.
Qed.

Lemma caching_of_spec : forall a c, cached_as c a <-> caching_of a = Some c.
Proof.
  intros a c.
  assert (K : forall k, cached_as k a <-> N.land a CACHE_ATTRIBUTE_MASK = 2 ^ cache_bit k).
  { intros k. unfold cached_as. split.
    - intros H. apply N.bits_inj. intros i. rewrite N.land_spec, N.pow2_bits_eqb.
      destruct (N.testbit CACHE_ATTRIBUTE_MASK i) eqn:E.
      + apply cache_mask_bits in E. specialize (H i E). rewrite andb_true_r.
        destruct (N.eqb_spec (cache_bit k) i) as [Q|Q]; [apply H; congruence|].
        destruct (N.testbit a i); [exfalso; apply Q; symmetry; apply H; reflexivity|reflexivity].
      + rewrite andb_false_r. destruct (N.eqb_spec (cache_bit k) i) as [Q|Q]; [|reflexivity]. exfalso.
        assert (N.testbit CACHE_ATTRIBUTE_MASK i = true); [|congruence]. apply cache_mask_bits. rewrite <- Q. unfold is_cache_bit. destruct k; cbn; lia.
    - intros H i Hi. apply (f_equal (fun v => N.testbit v i)) in H. rewrite N.land_spec, N.pow2_bits_eqb, (proj2 (cache_mask_bits i) Hi), andb_true_r in H.
      rewrite H, N.eqb_eq. split; congruence. }
  rewrite K. unfold caching_of. set (v := N.land a CACHE_ATTRIBUTE_MASK).
  destruct (N.eqb_spec v MEMORY_WB) as [E|E]; [rewrite E; destruct c; vm_compute; split; congruence|].
  destruct (N.eqb_spec v MEMORY_WC) as [E1|E1]; [rewrite E1; destruct c; vm_compute; split; congruence|].
  destruct (N.eqb_spec v MEMORY_WT) as [E2|E2]; [rewrite E2; destruct c; vm_compute; split; congruence|].
  destruct (N.eqb_spec v MEMORY_UC) as [E3|E3]; [rewrite E3; destruct c; vm_compute; split; congruence|].
  destruct (N.eqb_spec v MEMORY_WP) as [E4|E4]; [rewrite E4; destruct c; vm_compute; split; congruence|].
  split; [|discriminate]. intros H. exfalso. destruct c; [apply E3|apply E1|apply E|apply E2|apply E4]; exact H.
Qed.

Lemma grants_unique : forall a b v, grants a v -> grants b v -> a = b.
Proof.
  intros a b v (A1 & A2 & A3) (B1 & B2 & B3).
  assert (R : allows_read a = allows_read b) by (destruct (allows_read a), (allows_read b); intuition congruence).
  assert (W : allows_write a = allows_write b) by (destruct (allows_write a), (allows_write b); intuition congruence).
  assert (X : allows_execute a = allows_execute b) by (destruct (allows_execute a), (allows_execute b); intuition congruence).
  destruct a, b; cbn in *; congruence.
Qed.
