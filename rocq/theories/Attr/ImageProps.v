(** C64: the protections of images and of their stacks. *)
From Verif Require Import Base.Prelude Alloc.Model Gcd.Blocks Gcd.Model Gcd.Spec Gcd.BlockProofs Gcd.Proofs Gcd.AllocProofs Gcd.Main
  Gcd.Complete Gcd.Spin Gcd.SpinSpec Gcd.SpinProofs Gcd.SpinProps Attr.Model Attr.Spec Attr.Proofs Attr.Main.
Local Open Scope N_scope.

Lemma protect_wf : forall s ib al c s', sp_wf s -> s_dbg s = true -> al < 2 ^ 32 -> sc_size c < 2 ^ 32 -> ib + sc_va c + sc_size c + al < 2 ^ 64 ->
  sp_alarm s = false -> protect_section s ib al c = (SOk tt, s') -> sp_wf s' /\ s_dbg s' = true /\ sp_alarm s' = false.
Proof.
  intros s ib al c s' WF D Hal Hsz Hend A H. assert (NP : SOk tt <> SPanic (A := unit)) by discriminate.
  destruct (protect_debug s ib al c (SOk tt) s' WF D Hal Hsz Hend H NP) as ((F1 & F2 & F3) & E). rewrite A in E.
  destruct (protect_ok s ib al c s' WF Hal Hsz Hend H E) as ((K & _) & _). split; [exact K|]. split; [unfold s_dbg in *; congruence|exact E].
Qed.

Lemma apply_quiet : forall l s ib al s', sp_wf s -> image_wf ib al l -> apply_protections s ib al l = (SOk tt, s') -> no_assertion s s' -> sp_alarm s' = false.
Proof.
  intros l s ib al s' WF IW H [A|(D & A)]; [exact A|]. unfold apply_protections in H. revert s WF IW H D A.
  induction l as [|c l IH]; intros s WF IW H D A; cbn [each_section] in H; [injection H as <-; exact A|].
  destruct (protect_section s ib al c) as [q s1] eqn:E. destruct q as [[]|?| |]; try discriminate.
  destruct IW as (I1 & I2). destruct (I2 c (or_introl eq_refl)) as (I3 & I4).
  destruct (protect_wf s ib al c s1 WF D I1 I3 I4 A E) as (W1 & D1 & A1).
  apply (IH s1); auto. split; [exact I1|]. intros c' Hc'. apply I2. right. exact Hc'.
Qed.

(** Applying the protections of an image, no assertion having failed: every address of a section is protected as its
    characteristics demand - of the last section of the header that covers it, should they overlap - being the same
    memory otherwise; addresses in no section are untouched, and the page table follows. *)
Theorem c64_apply : forall s image_base alignment sections s', spin_ok s -> image_wf image_base alignment sections ->
  apply_protections s image_base alignment sections = (SOk tt, s') -> no_assertion s s' ->
  (forall x c, last_section image_base alignment sections x c ->
     exists st st', at_addr s x = Some st /\ at_addr s' x = Some st' /\ same_memory st st' /\ protected_as (sc_chars c) (ms_attrs st')) /\
  (forall x, (forall c, In c sections -> ~ in_section image_base alignment c x) -> at_addr s' x = at_addr s x) /\
  spin_ok s' /\ (in_sync s -> in_sync s').
Proof.
  intros s ib al l s' WF IW H Q. apply spin_ok_wf in WF. pose proof (apply_quiet l s ib al s' WF IW H Q) as A.
  destruct (each_ok ib al (fun c a => protected_as (sc_chars c) a) (fun s c => protect_section s ib al c)) with (l := l) (s := s) (s' := s') as (K & P1 & P2); auto.
  - intros s0 c s1 W B1 B2 B3 E A1. apply protect_ok; auto.
  - intros s0 c r s1 E A1. eapply protect_mono; eauto.
  - split; [exact P1|]. split; [exact P2|]. destruct K as (K1 & _ & _ & _ & _ & K6). split; [apply spin_ok_wf, K1|]. intros Y x. apply K6, Y.
Qed.

Lemma last_exists : forall ib al l x, (exists c, In c l /\ in_section ib al c x) -> exists c, last_section ib al l x c.
Proof.
  intros ib al. induction l as [|c l IH]; intros x (c0 & Hc & IN); [destruct Hc|].
  assert (D : (exists c, In c l /\ in_section ib al c x) \/ forall c', In c' l -> ~ in_section ib al c' x).
  { clear. induction l as [|c l IH]; [right; intros c []|]. destruct (section_dec ib al c x) as [Y|Y]; [left; exists c; split; [left; reflexivity|exact Y]|].
    destruct IH as [(c1 & H1 & H2)|N]; [left; exists c1; split; [right; exact H1|exact H2]|]. right. intros c' [<-|H]; auto. }
  destruct D as [D|D].
  - destruct (IH x D) as (c1 & l1 & l2 & -> & H2 & H3). exists c1, (c :: l1), l2. auto.
  - destruct Hc as [<-|Hc]; [|destruct (D c0 Hc IN)]. exists c, [], l. auto.
Qed.

(** No address of an image is both writable and executable: not in the map, and not to the processor. *)
Theorem c64_never_writable_and_executable : forall s image_base alignment sections s' c x, spin_ok s -> in_sync s ->
  image_wf image_base alignment sections -> apply_protections s image_base alignment sections = (SOk tt, s') -> no_assertion s s' ->
  In c sections -> in_section image_base alignment c x ->
  (forall a, attrs_at s' x = Some a -> ~ (writable a /\ executable a)) /\
  (forall t, sp_pt s' = Some t -> ~ (page_writable (t (x / 4096)) /\ page_executable (t (x / 4096)))).
Proof.
  intros s ib al l s' c x WF SY IW H Q Hc Hx. destruct (c64_apply s ib al l s' WF IW H Q) as (P1 & _ & _ & P2). specialize (P2 SY).
  destruct (last_exists ib al l x) as (k & LK); [exists c; auto|]. destruct (P1 x k LK) as (st & st' & _ & E & _ & (R & X & W)).
  assert (NB : ~ (writable (ms_attrs st') /\ executable (ms_attrs st'))).
  { intros (B1 & B2). apply W in B1. apply X in B2. unfold may_execute, may_write in *. destruct B1. congruence. }
  split.
  - intros a Ha. unfold attrs_at in Ha. rewrite E in Ha. injection Ha as <-. exact NB.
  - intros t Ht ((a & Ta & T1) & (a' & Ta' & T2)). assert (a' = a) by congruence. subst a'.
    specialize (P2 x t st' Ht E). rewrite P2 in Ta. unfold expected_mapping in Ta. apply NB. unfold writable, executable, readable in *.
    assert (a = N.land (ms_attrs st') page_bits) by (destruct (ms_type st'); rewrite ?R in Ta; congruence). subst a.
    rewrite N.land_spec in T1, T2. change (N.testbit page_bits 17) with true in T1. change (N.testbit page_bits 14) with true in T2.
    rewrite andb_true_r in T1, T2. auto.
Qed.

(** What the processor allows in a section is what its characteristics allow. *)
Theorem c64_mapped_as_sections : forall s image_base alignment sections s' c x t, spin_ok s -> in_sync s ->
  image_wf image_base alignment sections -> apply_protections s image_base alignment sections = (SOk tt, s') -> no_assertion s s' ->
  last_section image_base alignment sections x c -> sp_pt s' = Some t -> t (x / 4096) <> None ->
  (page_executable (t (x / 4096)) <-> may_execute (sc_chars c)) /\ (page_writable (t (x / 4096)) <-> may_write (sc_chars c)).
Proof.
  intros s ib al l s' c x t WF SY IW H Q LK Ht NN. destruct (c64_apply s ib al l s' WF IW H Q) as (P1 & _ & _ & P2). specialize (P2 SY).
  destruct (P1 x c LK) as (st & st' & _ & E & _ & (R & X & W)). specialize (P2 x t st' Ht E). rewrite P2 in *.
  unfold readable in R. unfold expected_mapping in *. rewrite R in *.
  assert (EQ : (match ms_type st' with NonExistent => None | _ => Some (N.land (ms_attrs st') page_bits) end) = Some (N.land (ms_attrs st') page_bits))
    by (destruct (ms_type st'); congruence).
  rewrite EQ. unfold page_executable, page_writable. rewrite <- X, <- W. unfold executable, writable.
  assert (B : forall i, N.testbit page_bits i = true -> (exists a, Some (N.land (ms_attrs st') page_bits) = Some a /\ N.testbit a i = false) <-> N.testbit (ms_attrs st') i = false).
  { intros i Hi. split.
    - intros (a & Ea & Ta). injection Ea as <-. rewrite N.land_spec, Hi, andb_true_r in Ta. exact Ta.
    - intros Ti. eexists. split; [reflexivity|]. now rewrite N.land_spec, Ti. }
  rewrite !B by reflexivity. tauto.
Qed.

(** Removing the protections of an image, without a failure: its sections become writable and not executable, and nothing
    else changes.  (Failures are only logged, in either build.) *)
Theorem c64_remove : forall s image_base alignment sections s', spin_ok s -> image_wf image_base alignment sections ->
  remove_protections s image_base alignment sections = (SOk tt, s') -> sp_alarm s' = false ->
  (forall x c, In c sections -> in_section image_base alignment c x ->
     exists st st', at_addr s x = Some st /\ at_addr s' x = Some st' /\ same_memory st st' /\ writable (ms_attrs st') /\ ~ executable (ms_attrs st')) /\
  (forall x, (forall c, In c sections -> ~ in_section image_base alignment c x) -> at_addr s' x = at_addr s x) /\
  spin_ok s' /\ (in_sync s -> in_sync s').
Proof.
  intros s ib al l s' WF IW H A. apply spin_ok_wf in WF.
  destruct (each_ok ib al (fun _ a => writable a /\ ~ executable a) (fun s c => unprotect_section s ib al c)) with (l := l) (s := s) (s' := s') as (K & P1 & P2); auto.
  - intros s0 c s1 W B1 B2 B3 E A1. apply unprotect_ok; auto.
  - intros s0 c r s1 E A1. eapply unprotect_mono; eauto.
  - split.
    { intros x c Hc Hx. destruct (last_exists ib al l x) as (k & LK); [exists c; auto|]. exact (P1 x k LK). }
    split; [exact P2|]. destruct K as (K1 & _ & _ & _ & _ & K6). split; [apply spin_ok_wf, K1|]. intros Y x. apply K6, Y.
Qed.

(** ** The stack of an image *)

Lemma dxe_quiet : forall s b l a r s', map_ok (sp_gcd s) -> 0 < g_max (sp_gcd s) < two64 -> dxe_set_attributes s b l a = (r, s') -> r <> SPanic ->
  no_assertion s s' -> sp_alarm s' = false.
Proof. intros s b l a r s' HM Hmax H Hp [A|(D & A)]; [exact A|]. destruct (dxe_debug _ _ _ _ _ _ HM Hmax D H Hp) as (E & _). congruence. Qed.

Lemma one_page : forall s b l a r s' (P : N -> Prop), spin_ok s -> b + l < two64 -> N.land a PAGING_MASK <> 0 -> P a ->
  (match dxe_set_attributes s b l a with (SErr _, s'') => (SOk tt, s'') | x => x end) = (r, s') -> r <> SPanic -> r <> SHang -> no_assertion s s' ->
  (forall x, in_range b l x -> exists st st', at_addr s x = Some st /\ at_addr s' x = Some st' /\ same_memory st st' /\ ms_caps st' = ms_caps st /\ P (ms_attrs st')) /\
  (forall x, ~ in_range b l x -> at_addr s' x = at_addr s x) /\ spin_ok s' /\ (in_sync s -> in_sync s').
Proof.
  intros s b l a r s' P WF Hb Hm HP H Hp Hh Q. pose proof WF as (HM & Hmax & _). apply spin_ok_wf in WF.
  destruct (dxe_set_attributes s b l a) as [q s1] eqn:E.
  assert (s1 = s') by (destruct q; congruence). subst s1.
  assert (NP : q <> SPanic) by (destruct q; congruence).
  pose proof (dxe_quiet _ _ _ _ _ _ HM Hmax E NP Q) as A.
  destruct q as [[]|er| |]; [|destruct (dxe_err _ _ _ _ _ _ HM Hmax E) as (X & _); congruence|congruence|congruence].
  pose proof (dxe_exact _ _ _ _ _ HM Hmax Hb E A) as (R1 & R2). split.
  - intros x Hx. destruct (R1 x Hx) as (st & S1 & _ & S2). exists st, (with_attrs st a). split; [exact S1|]. split; [exact S2|].
    split; [unfold same_memory; auto|]. split; [reflexivity|exact HP].
  - split; [exact R2|]. destruct (dxe_keeps _ _ _ _ _ _ WF Hm E NP A) as (K1 & _ & _ & _ & _ & K6). split; [apply spin_ok_wf, K1|]. intros Y x. apply K6, Y.
Qed.

Lemma guard_attr : forall a, N.land (N.lor a MEMORY_RP) PAGING_MASK <> 0 /\ ~ readable (N.lor a MEMORY_RP).
Proof.
  intros a. split.
  - apply (keeps_paging MEMORY_RP); [discriminate|apply subset_land; reflexivity|]. intros i Hi. rewrite N.lor_spec, Hi. apply orb_true_r.
  - unfold readable. rewrite N.lor_spec. change (N.testbit MEMORY_RP 13) with true. rewrite orb_true_r. discriminate.
Qed.

(** The guard page of a new image stack cannot be read, in the map or by the processor; nothing else changes. *)
Theorem c64_guard : forall s stack r s', spin_ok s -> in_sync s -> page_aligned stack -> stack + 4096 < 2 ^ 64 ->
  guard_stack s stack = (r, s') -> r <> SPanic -> r <> SHang -> no_assertion s s' ->
  (forall x, in_range stack 4096 x -> exists st st', at_addr s x = Some st /\ at_addr s' x = Some st' /\ same_memory st st' /\ ms_caps st' = ms_caps st /\ ~ readable (ms_attrs st')) /\
  (forall t, sp_pt s' = Some t -> t (stack / 4096) = None) /\
  (forall x, ~ in_range stack 4096 x -> at_addr s' x = at_addr s x) /\ spin_ok s' /\ in_sync s'.
Proof.
  intros s b r s' WF SY AL Hb H Hp Hh Q. change (2 ^ 64) with two64 in Hb. unfold guard_stack in H.
  assert (EX : exists a, (match dxe_set_attributes s b 4096 (N.lor a MEMORY_RP) with (SErr _, s'') => (SOk tt, s'') | x => x end) = (r, s')).
  { destruct (get_memory_descriptor_for_address (sp_gcd s) b) as [d|?|]; [eexists; exact H|eexists; exact H|injection H as <- <-; congruence]. }
  destruct EX as (a & E). destruct (guard_attr a) as (G1 & G2).
  destruct (one_page s b 4096 _ r s' (fun a => ~ readable a) WF Hb G1 G2 E Hp Hh Q) as (P1 & P2 & P3 & P4). specialize (P4 SY).
  split; [exact P1|]. split; [|auto]. intros t Ht. destruct (P1 b ltac:(unfold in_range; lia)) as (st & st' & _ & S2 & _ & _ & NR).
  rewrite (P4 b t st' Ht S2). unfold expected_mapping. unfold readable in NR. destruct (ms_type st'); try reflexivity;
    destruct (N.testbit (ms_attrs st') 13); congruence.
Qed.

(** Before the stack is freed the guard page becomes writable and not executable again. *)
Theorem c64_unguard : forall s stack r s', spin_ok s -> stack + 4096 < 2 ^ 64 ->
  unguard_stack s stack = (r, s') -> r <> SPanic -> r <> SHang -> no_assertion s s' ->
  (forall x, in_range stack 4096 x -> exists st st', at_addr s x = Some st /\ at_addr s' x = Some st' /\ same_memory st st' /\ ms_caps st' = ms_caps st /\
     writable (ms_attrs st') /\ ~ executable (ms_attrs st')) /\
  (forall x, ~ in_range stack 4096 x -> at_addr s' x = at_addr s x) /\ spin_ok s' /\ (in_sync s -> in_sync s').
Proof.
  intros s b r s' WF Hb H Hp Hh Q. change (2 ^ 64) with two64 in Hb. unfold unguard_stack in H.
  assert (EX : exists a, writable (N.lor a MEMORY_XP) /\ (match dxe_set_attributes s b 4096 (N.lor a MEMORY_XP) with (SErr _, s'') => (SOk tt, s'') | x => x end) = (r, s')).
  { destruct (get_memory_descriptor_for_address (sp_gcd s) b) as [d|?|].
    - exists (without (ms_attrs (b_st d)) MEMORY_ATTRIBUTE_MASK). split; [apply unprotect_bits|exact H].
    - exists DEFAULT_CACHE_ATTR. split; [split; reflexivity|exact H].
    - injection H as <- <-; congruence. }
  destruct EX as (a & W & E).
  assert (NX : ~ executable (N.lor a MEMORY_XP)).
  { unfold executable. rewrite !N.lor_spec. change (N.testbit MEMORY_XP 14) with true. rewrite orb_true_r. intros (_ & X). discriminate. }
  destruct (one_page s b 4096 _ r s' (fun a => writable a /\ ~ executable a) WF Hb (xp_paging a) (conj W NX) E Hp Hh Q) as (P1 & P2 & P3 & P4).
  split; [exact P1|]. auto.
Qed.

(** ** Runtime images at ExitBootServices *)

(** The pages of a runtime image whose memory has a cacheability attribute become readable, writable and executable, keep
    the cacheability of the first of them and lose every other attribute. *)
Theorem c64_fixup : forall s base len s' st0, spin_ok s -> base + len < 2 ^ 64 -> at_addr s base = Some st0 ->
  fixup_runtime_image s base len = (SOk tt, s') -> no_assertion s s' ->
  (forall x, in_range base len x -> exists st st', at_addr s x = Some st /\ at_addr s' x = Some st' /\ same_memory st st' /\ ms_caps st' = ms_caps st /\
     forall i, N.testbit (ms_attrs st') i = true <-> is_cache_bit i /\ N.testbit (ms_attrs st0) i = true) /\
  (forall x, ~ in_range base len x -> at_addr s' x = at_addr s x) /\
  ((exists i, is_cache_bit i /\ N.testbit (ms_attrs st0) i = true) -> spin_ok s' /\ (in_sync s -> in_sync s')).
Proof.
  intros s b l s' st0 WF Hb S0 H Q. change (2 ^ 64) with two64 in Hb. pose proof WF as (HM & Hmax & _). unfold fixup_runtime_image in H.
  assert (LT : b < g_max (sp_gcd s)).
  { destruct (N.lt_ge_cases b (g_max (sp_gcd s))) as [Y|Y]; [exact Y|]. unfold at_addr in S0. rewrite past_end in S0; [discriminate|exact HM|exact Y]. }
  destruct (descriptor_at (sp_gcd s) b HM ltac:(lia) LT) as (d & GD & Hin & Hd & SD). unfold at_addr in S0. rewrite SD in S0. injection S0 as ES.
  rewrite GD in H. rewrite ES in H. set (a := N.land (ms_attrs st0) CACHE_ATTRIBUTE_MASK) in *.
  assert (BT : forall i, N.testbit a i = true <-> is_cache_bit i /\ N.testbit (ms_attrs st0) i = true).
  { intros i. unfold a. rewrite N.land_spec, andb_true_iff, cache_mask_bits. tauto. }
  destruct (dxe_set_attributes s b l a) as [q s1] eqn:E.
  assert (NP : q <> SPanic) by (destruct q; congruence).
  assert (OK : q = SOk tt /\ s1 = s' /\ sp_alarm s' = false).
  { destruct q as [[]|er| |]; try congruence; [|exfalso].
    - injection H as ->. split; [reflexivity|]. split; [reflexivity|]. eapply dxe_quiet; eauto.
    - destruct (dxe_err _ _ _ _ _ _ HM Hmax E) as (X & D). destruct Q as [A|(D' & _)]; [|congruence].
      unfold assert_then in H. apply assert_mono in H; [congruence|exact X]. }
  destruct OK as (-> & -> & A). pose proof (dxe_exact _ _ _ _ _ HM Hmax Hb E A) as (R1 & R2). split.
  { intros x Hx. destruct (R1 x Hx) as (st & S1 & _ & S2). exists st, (with_attrs st a). split; [exact S1|]. split; [exact S2|].
    split; [unfold same_memory; auto|]. split; [reflexivity|exact BT]. }
  split; [exact R2|]. intros (i & C1 & C2). apply spin_ok_wf in WF.
  assert (M : N.land a PAGING_MASK <> 0).
  { intros Z. apply (f_equal (fun v => N.testbit v i)) in Z. rewrite N.land_spec, N.bits_0 in Z. rewrite (proj2 (BT i) (conj C1 C2)) in Z. cbn in Z.
    destruct C1 as [C1| ->]; [|discriminate]. destruct i as [|p]; [discriminate|]. do 3 (destruct p as [p|p|]; try discriminate; try lia). }
  destruct (dxe_keeps _ _ _ _ _ _ WF M E NP A) as (K1 & _ & _ & _ & _ & K6). split; [apply spin_ok_wf, K1|]. intros Y x. apply K6, Y.
Qed.

(** ** An image on the booted system: a header-like read-only section, a code section and a data section, protected,
    then released; and a guard page. *)
Definition demo_image : list section := [Sect 0x1000 0x800 0x60000020; Sect 0x2000 0x1800 0xC0000040; Sect 0x4000 0x10 0x40000040].

Example demo_image_wf : image_wf 0x100000 0x1000 demo_image.
Proof. split; [reflexivity|]. intros c [<-|[<-|[<-|[]]]]; split; reflexivity. Qed.

Example protect_demo : forall dbg, exists s1 s2,
  apply_protections (booted dbg) 0x100000 0x1000 demo_image = (SOk tt, s1) /\ no_assertion (booted dbg) s1 /\
  map (attrs_at s1) [0x100FFF; 0x101000; 0x102000; 0x103FFF; 0x104000; 0x105000] =
    [Some 0x4008; Some 0x20008; Some 0x4008; Some 0x4008; Some 0x24008; Some 0x4008] /\
  pages s1 [0x100; 0x101; 0x102; 0x103; 0x104; 0x105] = [Some 0x4008; Some 0x20008; Some 0x4008; Some 0x4008; Some 0x24008; Some 0x4008] /\
  remove_protections s1 0x100000 0x1000 demo_image = (SOk tt, s2) /\ sp_alarm s2 = false /\
  pages s2 [0x100; 0x101; 0x102; 0x103; 0x104; 0x105] = [Some 0x4008; Some 0x4008; Some 0x4008; Some 0x4008; Some 0x4008; Some 0x4008].
Proof. intros dbg. destruct dbg; do 2 eexists; repeat (split; [first [vm_compute; reflexivity|left; vm_compute; reflexivity]|]); vm_compute; reflexivity. Qed.

Example guard_demo : forall dbg, exists s1 s2 s3,
  guard_stack (booted dbg) 0x110000 = (SOk tt, s1) /\ no_assertion (booted dbg) s1 /\ pages s1 [0x10F; 0x110; 0x111] = [Some 0x4008; None; Some 0x4008] /\
  unguard_stack s1 0x110000 = (SOk tt, s2) /\ no_assertion s1 s2 /\ pages s2 [0x10F; 0x110; 0x111] = [Some 0x4008; Some 0x4008; Some 0x4008] /\
  fixup_runtime_image s2 0x110000 0x1000 = (SOk tt, s3) /\ no_assertion s2 s3 /\ pages s3 [0x10F; 0x110; 0x111] = [Some 0x4008; Some 0x8; Some 0x4008].
Proof. intros dbg. destruct dbg; do 3 eexists; repeat (split; [first [vm_compute; reflexivity|left; vm_compute; reflexivity]|]); vm_compute; reflexivity. Qed.

(** Without a cacheability attribute the attributes are recorded as cleared, and the mapping stays as it was. *)
Theorem c64_fixup_refuted : forall dbg, exists s',
  fixup_runtime_image (booted dbg) 0x400000 0x1000 = (SOk tt, s') /\ sp_alarm s' = false /\ attrs_at s' 0x400000 = Some 0 /\
  pages s' [0x400] = [Some 0x4000] /\ ~ in_sync s'.
Proof.
  intros dbg. destruct dbg; eexists; (split; [vm_compute; reflexivity|]); (split; [vm_compute; reflexivity|]); (split; [vm_compute; reflexivity|]);
    (split; [vm_compute; reflexivity|]); apply (disagrees _ 0x400000); vm_compute; reflexivity.
Qed.

(** A section with neither the code nor the readable flag is left writable, whatever its flags say. *)
Theorem c64_unreadable_section_writable_refuted : forall dbg, exists c s',
  N.testbit (sc_chars c) 31 = false /\ apply_protections (booted dbg) 0x100000 0x1000 [c] = (SOk tt, s') /\ sp_alarm s' = false /\
  pages s' [0x101] = [Some 0x4008].
Proof.
  intros dbg. exists (Sect 0x1000 0x1000 0x40). destruct dbg; eexists; repeat (split; [vm_compute; reflexivity|]); vm_compute; reflexivity.
Qed.

Print Assumptions c64_apply.
Print Assumptions c64_never_writable_and_executable.
Print Assumptions c64_mapped_as_sections.
Print Assumptions c64_remove.
Print Assumptions c64_guard.
Print Assumptions c64_unguard.
Print Assumptions c64_fixup.
