(** Proofs about the memory map kept together with the page table. *)
From Verif Require Import Base.Prelude Gcd.Blocks Gcd.Model Gcd.Spec Gcd.BlockProofs Gcd.Proofs Gcd.AllocProofs Gcd.Main
  Gcd.Hist Gcd.Complete Gcd.Spin Gcd.SpinSpec.
Local Open Scope N_scope.

Lemma rp_test : forall a, (N.land (N.land a PAGING_MASK) MEMORY_RP =? MEMORY_RP) = N.testbit a 13.
Proof.
  intros a. replace (N.land (N.land a PAGING_MASK) MEMORY_RP) with (N.land a MEMORY_RP)
    by (rewrite <- N.land_assoc; reflexivity).
  change MEMORY_RP with (2 ^ 13). destruct (N.testbit a 13) eqn:E.
  - apply N.eqb_eq, N.bits_inj. intros i. rewrite N.land_spec.
    destruct (N.eq_dec i 13) as [->|D].
    + rewrite E, N.pow2_bits_true. reflexivity.
    + rewrite N.pow2_bits_false by lia. apply andb_false_r.
  - apply N.eqb_neq. intros H. assert (X : N.testbit (N.land a (2 ^ 13)) 13 = true)
      by (rewrite H; apply N.pow2_bits_true).
    rewrite N.land_spec, E in X. discriminate.
Qed.

Lemma region_ok_spec : forall b l, region_ok b l = true <-> page_aligned b /\ page_aligned l /\ l <> 0.
Proof.
  intros b l. unfold region_ok, page_aligned. rewrite !andb_true_iff, negb_true_iff, !N.eqb_eq, N.eqb_neq. tauto.
Qed.

Lemma in_region_addr : forall b l a, page_aligned b -> page_aligned l ->
  in_region b l (a / UEFI_PAGE_SIZE) = true <-> in_range b l a.
Proof.
  unfold in_region, in_range, page_aligned, UEFI_PAGE_SIZE. intros b l a Hb Hl.
  change 0x1000 with 4096 in *.
  rewrite andb_true_iff, N.leb_le, N.ltb_lt.
  pose proof (N.div_mod b 4096 ltac:(lia)). pose proof (N.div_mod l 4096 ltac:(lia)).
  pose proof (N.div_mod a 4096 ltac:(lia)). pose proof (N.mod_lt a 4096 ltac:(lia)).
  rewrite Hb in *. rewrite Hl in *. lia.
Qed.

Lemma in_region_pages : forall b l p, In p (region_pages b l) <-> in_region b l p = true.
Proof.
  intros b l p. unfold region_pages, in_region. rewrite in_map_iff, andb_true_iff, N.leb_le, N.ltb_lt.
  split.
  - intros (i & <- & Hi). apply in_seq in Hi. lia.
  - intros (H1 & H2). exists (N.to_nat (p - b / UEFI_PAGE_SIZE)). split; [lia|]. apply in_seq. lia.
Qed.

Lemma opt_eqb_eq : forall a b, opt_eqb a b = true <-> a = b.
Proof.
  intros [x|] [y|]; cbn; split; intros H; try discriminate; try reflexivity.
  - apply N.eqb_eq in H. now subst.
  - injection H as ->. apply N.eqb_refl.
Qed.

Lemma forallb_region : forall (t : ptab) b l c, forallb (fun p => opt_eqb (t p) c) (region_pages b l) = true <->
  (forall p, in_region b l p = true -> t p = c).
Proof.
  intros. rewrite forallb_forall. split; intros H p Hp.
  - apply opt_eqb_eq, H, in_region_pages, Hp.
  - apply opt_eqb_eq, H, in_region_pages, Hp.
Qed.

Definition pt_wf (t : ptab) : Prop :=
  forall p a, t p = Some a -> N.land a PAGING_MASK = a /\ N.testbit a 13 = false.

Definition wanted (attrs : N) : option N :=
  if N.testbit attrs 13 then None else Some (N.land attrs PAGING_MASK).

Lemma land_idem_mask : forall a, N.land (N.land a PAGING_MASK) PAGING_MASK = N.land a PAGING_MASK.
Proof. intros. now rewrite <- N.land_assoc. Qed.

Lemma mask_bit13 : forall a, N.testbit (N.land a PAGING_MASK) 13 = N.testbit a 13.
Proof. intros. rewrite N.land_spec. change (N.testbit PAGING_MASK 13) with true. apply andb_true_r. Qed.

Lemma take_fault_fields : forall s f s', take_fault s = (f, s') ->
  sp_gcd s' = sp_gcd s /\ sp_pt s' = sp_pt s /\ sp_default s' = sp_default s /\ sp_notices s' = sp_notices s /\
  sp_alarm s' = sp_alarm s.
Proof.
  intros s f s' H. unfold take_fault in H. destruct (sp_faults s); injection H as <- <-; auto.
Qed.

Lemma assert_alarm : forall {A} s (r r' : sout A) s', assert_then s r = (r', s') -> r' <> SPanic -> sp_alarm s' = true.
Proof.
  intros A s r r' s' H N. unfold assert_then in H. destruct (s_dbg s); injection H as <- <-; [congruence|reflexivity].
Qed.

(** What a successful [set_paging_attributes] does, whatever the table held. *)
Lemma set_paging_ok : forall s t base len attrs s', sp_pt s = Some t -> pt_wf t ->
  set_paging_attributes s base len attrs = (SOk tt, s') -> sp_alarm s' = false ->
  sp_gcd s' = sp_gcd s /\ sp_default s' = sp_default s /\ sp_alarm s = false /\
  page_aligned base /\ page_aligned len /\
  exists t', sp_pt s' = Some t' /\ pt_wf t' /\
    forall p, t' p = if in_region base len p then wanted attrs else t p.
Proof.
  intros s t base len attrs s' Ht W H HA. unfold set_paging_attributes in H. rewrite Ht in H. cbv zeta in H.
  rewrite rp_test in H.
  destruct (pt_query t base len) as [cur|e|] eqn:Q.
  - unfold pt_query in Q. destruct (region_ok base len) eqn:RO; [|discriminate].
    cbv zeta in Q.
    match type of Q with (if ?c then _ else _) = _ => destruct c eqn:FA; [|discriminate] end.
    apply region_ok_spec in RO. destruct RO as (A1 & A2 & A3).
    rewrite forallb_region in FA.
    destruct (t (base / UEFI_PAGE_SIZE)) as [c|] eqn:TC; [|discriminate]. injection Q as ->.
    destruct (W _ _ TC) as (W1 & W2).
    destruct (N.eqb_spec (N.land cur PAGING_MASK) (N.land attrs PAGING_MASK)) as [E|E].
    + injection H as <-. rewrite W1 in E. split; [reflexivity|]. split; [reflexivity|]. split; [exact HA|].
      split; [exact A1|]. split; [exact A2|].
      exists t. split; [exact Ht|]. split; [exact W|]. intros p. destruct (in_region base len p) eqn:IR; [|reflexivity].
      rewrite (FA p IR). unfold wanted. rewrite E in *. rewrite mask_bit13 in W2. rewrite W2. reflexivity.
    + destruct (N.testbit attrs 13) eqn:B.
      * destruct (take_fault s) as (f, s1) eqn:TF. apply take_fault_fields in TF.
        destruct TF as (F1 & F2 & F3 & F4 & F5).
        unfold pt_unmap in H. rewrite (proj2 (region_ok_spec base len)) in H by auto.
        destruct f as [e|]; [apply assert_alarm in H; congruence|].
        match type of H with context[if ?c then Err _ else _] => destruct c eqn:FN end;
          [apply assert_alarm in H; congruence|].
        injection H as <-. cbn [with_pt sp_gcd sp_pt sp_default sp_alarm] in *.
        split; [congruence|]. split; [congruence|]. split; [congruence|]. split; [exact A1|]. split; [exact A2|].
        eexists. split; [reflexivity|]. split.
        { intros p a. cbn. destruct (in_region base len p); [discriminate|apply W]. }
        intros p. unfold wanted. rewrite B. reflexivity.
      * destruct (take_fault s) as (f, s1) eqn:TF. apply take_fault_fields in TF.
        destruct TF as (F1 & F2 & F3 & F4 & F5).
        unfold pt_map in H. rewrite (proj2 (region_ok_spec base len)) in H by auto.
        destruct f as [e|]; [destruct e; apply assert_alarm in H; congruence|].
        match type of H with (if ?c then _ else _) = _ => destruct c end;
          (injection H as <-; cbn [with_pt notify sp_gcd sp_pt sp_default sp_alarm] in *;
           split; [congruence|]; split; [congruence|]; split; [congruence|]; split; [exact A1|]; split; [exact A2|];
           eexists; split; [reflexivity|]; split;
           [intros p a; cbn; destruct (in_region base len p);
             [intros [= <-]; rewrite land_idem_mask, mask_bit13; auto|apply W]
           |intros p; unfold wanted; rewrite B; reflexivity]).
  - destruct e; try (apply assert_alarm in H; congruence).
    unfold pt_query in Q. destruct (region_ok base len) eqn:RO; [|discriminate].
    apply region_ok_spec in RO. destruct RO as (A1 & A2 & A3).
    destruct (N.testbit attrs 13) eqn:B; [apply assert_alarm in H; congruence|].
    destruct (take_fault s) as (f, s1) eqn:TF. apply take_fault_fields in TF.
    destruct TF as (F1 & F2 & F3 & F4 & F5).
    unfold pt_map in H. rewrite (proj2 (region_ok_spec base len)) in H by auto.
    destruct f as [e|]; [destruct e; apply assert_alarm in H; congruence|].
    match type of H with (if ?c then _ else _) = _ => destruct c end;
      (injection H as <-; cbn [with_pt notify sp_gcd sp_pt sp_default sp_alarm] in *;
       split; [congruence|]; split; [congruence|]; split; [congruence|]; split; [exact A1|]; split; [exact A2|];
       eexists; split; [reflexivity|]; split;
       [intros p a; cbn; destruct (in_region base len p);
         [intros [= <-]; rewrite land_idem_mask, mask_bit13; auto|apply W]
       |intros p; unfold wanted; rewrite B; reflexivity]).
  - apply assert_alarm in H; congruence.
Qed.

Lemma set_paging_err : forall s base len attrs e s',
  set_paging_attributes s base len attrs = (SErr e, s') -> sp_alarm s' = false -> sp_pt s = None /\ e = NotReady /\ s' = s.
Proof.
  intros s base len attrs e s' H HA. unfold set_paging_attributes in H.
  destruct (sp_pt s) as [t|]; [exfalso|injection H as <- <-; auto].
  cbv zeta in H.
  destruct (pt_query t base len) as [cur|q|].
  - match type of H with (if ?c then _ else _) = _ => destruct c; [discriminate|] end.
    match type of H with (if ?c then _ else _) = _ => destruct c end;
      destruct (take_fault s) as (f, s1).
    + destruct (pt_unmap t base len f) as [?|?|]; try discriminate; apply assert_alarm in H; congruence.
    + destruct (pt_map t base len (N.land attrs PAGING_MASK) f) as [?|q|].
      * match type of H with (if ?c then _ else _) = _ => destruct c; discriminate end.
      * destruct q; apply assert_alarm in H; congruence.
      * apply assert_alarm in H; congruence.
  - destruct q; try (apply assert_alarm in H; congruence).
    match type of H with (if ?c then _ else _) = _ => destruct c; [apply assert_alarm in H; congruence|] end.
    destruct (take_fault s) as (f, s1).
    destruct (pt_map t base len (N.land attrs PAGING_MASK) f) as [?|q|].
    + match type of H with (if ?c then _ else _) = _ => destruct c; discriminate end.
    + destruct q; apply assert_alarm in H; congruence.
    + apply assert_alarm in H; congruence.
  - apply assert_alarm in H; congruence.
Qed.

Lemma set_paging_not_hang : forall s base len attrs s', set_paging_attributes s base len attrs = (SHang, s') -> False.
Proof.
  assert (AH : forall A s (r : sout A) s', assert_then s r = (SHang, s') -> r = SHang).
  { intros A s r s' H. unfold assert_then in H. destruct (s_dbg s); congruence. }
  intros s base len attrs s' H. unfold set_paging_attributes in H.
  destruct (sp_pt s) as [t|]; [|discriminate].
  cbv zeta in H.
  destruct (pt_query t base len) as [cur|q|].
  - match type of H with (if ?c then _ else _) = _ => destruct c; [discriminate|] end.
    match type of H with (if ?c then _ else _) = _ => destruct c end;
      destruct (take_fault s) as (f, s1).
    + destruct (pt_unmap t base len f) as [?|?|]; try discriminate; apply AH in H; congruence.
    + destruct (pt_map t base len (N.land attrs PAGING_MASK) f) as [?|q|].
      * match type of H with (if ?c then _ else _) = _ => destruct c; discriminate end.
      * destruct q; apply AH in H; congruence.
      * apply AH in H; congruence.
  - destruct q; try (apply AH in H; congruence).
    match type of H with (if ?c then _ else _) = _ => destruct c; [apply AH in H; congruence|] end.
    destruct (take_fault s) as (f, s1).
    destruct (pt_map t base len (N.land attrs PAGING_MASK) f) as [?|q|].
    + match type of H with (if ?c then _ else _) = _ => destruct c; discriminate end.
    + destruct q; apply AH in H; congruence.
    + apply AH in H; congruence.
  - apply AH in H; congruence.
Qed.

(** ** One turn and the whole loop *)

(** What every part of this layer preserves when no alarm is raised. *)
Definition sp_wf (s : spin) : Prop :=
  map_ok (sp_gcd s) /\ 0 < g_max (sp_gcd s) < two64 /\ (forall t, sp_pt s = Some t -> pt_wf t).

Definition keeps (s s' : spin) : Prop :=
  sp_wf s' /\ g_max (sp_gcd s') = g_max (sp_gcd s) /\ g_dbg (sp_gcd s') = g_dbg (sp_gcd s) /\
  sp_default s' = sp_default s /\ (sp_pt s = None <-> sp_pt s' = None) /\
  (forall a, synced_at s a -> synced_at s' a).

Lemma keeps_refl : forall s, sp_wf s -> keeps s s.
Proof. intros s H. unfold keeps. intuition auto. Qed.

Lemma keeps_trans : forall a b c, keeps a b -> keeps b c -> keeps a c.
Proof.
  unfold keeps. intros a b c (A1 & A2 & A3 & A5 & A6 & A7) (B1 & B2 & B3 & B5 & B6 & B7).
  split; [exact B1|]. split; [congruence|]. split; [congruence|]. split; [congruence|].
  split; [tauto|]. auto.
Qed.

Lemma keeps_notify : forall s s' n, keeps s s' -> keeps s (notify s' n).
Proof. intros s s' n H. exact H. Qed.

Lemma set_gcd_ok : forall g b l a g', map_ok g -> 0 < g_max g < two64 -> word b -> word l ->
  set_memory_space_attributes g b l a = (Ok tt, g') ->
  same_frame g g' /\ map_ok g' /\ page_aligned b /\ page_aligned l /\
  exists s s', 0 < l /\ b + l <= g_max g /\ call_effect (OpSetAttributes b l a) s s' /\
    range_changed (g_blocks g) (g_blocks g') b l s s'.
Proof.
  intros g b l a g' HM Hmax Wb Wl H.
  pose proof (set_attributes_step g b l a (Ok 0) g' HM Hmax Wb Wl) as P.
  rewrite H in P. cbn [lift_unit] in P. specialize (P eq_refl). cbn [step_post] in P.
  destruct P as [(F & _)|(F & M & b' & l' & s & s' & C & L & R & E & RC)]; [discriminate|].
  cbn [call_range] in C. injection C as <- <-.
  split; [exact F|]. split; [exact M|].
  unfold set_memory_space_attributes in H. destruct (check_range g b l true) as [u|e|] eqn:CR; try discriminate.
  destruct u. apply check_range_aligned in CR. split; [tauto|]. split; [tauto|]. exists s, s'. auto.
Qed.

Lemma expected_wanted : forall st, ms_type st <> NonExistent -> expected_mapping st = wanted (ms_attrs st).
Proof. intros st H. unfold expected_mapping, wanted. destruct (ms_type st); try reflexivity. congruence. Qed.

Lemma swallow_ok : forall s b l a s1, swallow_set s b l a = (SOk tt, s1) -> sp_alarm s1 = false ->
  exists g', set_memory_space_attributes (sp_gcd s) b l a = (Ok tt, g') /\ s1 = with_gcd s g'.
Proof.
  intros s b l a s1 H HA. unfold swallow_set in H.
  destruct (set_memory_space_attributes (sp_gcd s) b l a) as [[u|e|] g'] eqn:E.
  - injection H as <-. destruct u. eauto.
  - apply assert_alarm in H; congruence.
  - discriminate.
Qed.

Lemma swallow_other : forall s b l a r s1, swallow_set s b l a = (r, s1) -> r = SOk tt \/ r = SPanic.
Proof.
  intros s b l a r s1 H. unfold swallow_set, assert_then in H.
  destruct (set_memory_space_attributes (sp_gcd s) b l a) as [[u|e|] g'].
  - injection H as <- <-. auto.
  - destruct (s_dbg (with_gcd s g')); injection H as <- <-; auto.
  - injection H as <- <-. auto.
Qed.

Lemma same_frame_max : forall g g', same_frame g g' -> g_max g' = g_max g /\ g_dbg g' = g_dbg g /\ g_locked g' = g_locked g.
Proof. intros g g' ->. cbn. auto. Qed.

(** Both calls of one turn succeed with a page table. *)
Lemma turn_ok : forall s t b l a g' s2, sp_wf s -> sp_pt s = Some t -> word b -> word l ->
  set_memory_space_attributes (sp_gcd s) b l a = (Ok tt, g') ->
  set_paging_attributes (with_gcd s g') b l a = (SOk tt, s2) -> sp_alarm s2 = false ->
  keeps s s2 /\ (forall x, in_range b l x -> synced_at s2 x).
Proof.
  intros s t b l a g' s2 (HM & Hmax & W) Ht Wb Wl HG HP HA.
  destruct (set_gcd_ok _ _ _ _ _ HM Hmax Wb Wl HG) as (F & M' & A1 & A2 & st & st' & L & R & E & (RC1 & RC2)).
  pose proof (same_frame_max _ _ F) as (F1 & F2 & F3).
  destruct (set_paging_ok (with_gcd s g') t b l a s2 Ht (W t Ht) HP HA) as (P1 & P2 & P3 & _ & _ & t' & T1 & T2 & T3).
  cbn [with_gcd sp_gcd sp_default] in *.
  cbn [call_effect] in E. destruct E as (E1 & E2 & E3).
  assert (SY : forall x, in_range b l x -> synced_at s2 x).
  { intros x Hx u sx Hu Hs. rewrite P1 in Hs. rewrite T1 in Hu. injection Hu as <-.
    destruct (RC1 x Hx) as (_ & Y). rewrite Y in Hs. injection Hs as <-.
    change (x / 4096) with (x / UEFI_PAGE_SIZE). rewrite T3.
    rewrite (proj2 (in_region_addr b l x A1 A2) Hx).
    rewrite expected_wanted by (subst st'; exact E1). subst st'. reflexivity. }
  split; [|exact SY].
  unfold keeps. rewrite P1. split.
  { split; [rewrite P1; exact M'|]. split; [rewrite P1, F1; exact Hmax|]. intros u Hu. rewrite T1 in Hu. now injection Hu as <-. }
  split; [exact F1|]. split; [exact F2|]. split; [exact P2|]. split.
  { rewrite Ht, T1. split; discriminate. }
  intros x Hx. destruct (in_region b l (x / UEFI_PAGE_SIZE)) eqn:IR.
  - apply SY, in_region_addr; auto.
  - intros u sx Hu Hs. rewrite P1 in Hs. rewrite T1 in Hu. injection Hu as <-.
    rewrite RC2 in Hs by (intros X; apply (in_region_addr b l x A1 A2) in X; congruence).
    change (x / 4096) with (x / UEFI_PAGE_SIZE). rewrite T3, IR. apply (Hx t sx Ht Hs).
Qed.

(** A turn before the page table exists. *)
Lemma turn_no_table : forall s b l a g', sp_wf s -> sp_pt s = None -> word b -> word l ->
  set_memory_space_attributes (sp_gcd s) b l a = (Ok tt, g') -> keeps s (with_gcd s g').
Proof.
  intros s b l a g' (HM & Hmax & W) Ht Wb Wl HG.
  destruct (set_gcd_ok _ _ _ _ _ HM Hmax Wb Wl HG) as (F & M' & _).
  pose proof (same_frame_max _ _ F) as (F1 & F2 & F3).
  unfold keeps. cbn [with_gcd sp_gcd sp_default sp_pt]. split.
  { split; [exact M'|]. split; [cbn; rewrite F1; exact Hmax|exact W]. }
  repeat (split; [first [congruence|tauto]|]). intros x _ u sx Hu. cbn in Hu. congruence.
Qed.

(** ** The alarm is never taken back *)
Lemma assert_mono : forall {A} s (r r' : sout A) s', assert_then s r = (r', s') -> sp_alarm s = true -> sp_alarm s' = true.
Proof. intros A s r r' s' H E. unfold assert_then in H. destruct (s_dbg s); injection H as <- <-; [exact E|reflexivity]. Qed.

Lemma set_paging_mono : forall s b l a r s', set_paging_attributes s b l a = (r, s') -> sp_alarm s = true -> sp_alarm s' = true.
Proof.
  intros s b l a r s' H E. unfold set_paging_attributes in H.
  destruct (sp_pt s) as [t|]; [|injection H as <- <-; exact E].
  cbv zeta in H.
  assert (TF : forall f s1, take_fault s = (f, s1) -> sp_alarm s1 = true).
  { intros f s1 HT. apply take_fault_fields in HT. destruct HT as (_ & _ & _ & _ & ->). exact E. }
  destruct (pt_query t b l) as [cur|q|].
  - match type of H with (if ?c then _ else _) = _ => destruct c; [injection H as <- <-; exact E|] end.
    match type of H with (if ?c then _ else _) = _ => destruct c end;
      destruct (take_fault s) as (f, s1); specialize (TF f s1 eq_refl).
    + destruct (pt_unmap t b l f) as [?|?|]; [injection H as <- <-; exact TF| |]; eapply assert_mono; eauto.
    + destruct (pt_map t b l (N.land a PAGING_MASK) f) as [?|q|].
      * match type of H with (if ?c then _ else _) = _ => destruct c; injection H as <- <-; exact TF end.
      * destruct q; eapply assert_mono; eauto.
      * eapply assert_mono; eauto.
  - destruct q; try (eapply assert_mono; eauto; fail).
    match type of H with (if ?c then _ else _) = _ => destruct c; [eapply assert_mono; eauto|] end.
    destruct (take_fault s) as (f, s1); specialize (TF f s1 eq_refl).
    destruct (pt_map t b l (N.land a PAGING_MASK) f) as [?|q|].
    + match type of H with (if ?c then _ else _) = _ => destruct c; injection H as <- <-; exact TF end.
    + destruct q; eapply assert_mono; eauto.
    + eapply assert_mono; eauto.
  - eapply assert_mono; eauto.
Qed.

Lemma swallow_mono : forall s b l a r s1, swallow_set s b l a = (r, s1) -> sp_alarm s = true -> sp_alarm s1 = true.
Proof.
  intros s b l a r s1 H E. unfold swallow_set in H.
  destruct (set_memory_space_attributes (sp_gcd s) b l a) as [[u|e|] g'].
  - injection H as <- <-. exact E.
  - eapply assert_mono; eauto.
  - injection H as <- <-. exact E.
Qed.

Lemma loop_mono : forall fuel s cur e attrs nr r s', set_attrs_loop fuel s cur e attrs nr = (r, s') ->
  sp_alarm s = true -> sp_alarm s' = true.
Proof.
  induction fuel as [|fuel IH]; intros s cur e attrs nr r s' H HA; cbn [set_attrs_loop] in H.
  { injection H as <- <-. exact HA. }
  destruct (e <=? cur); [injection H as <- <-; exact HA|].
  destruct (get_memory_descriptor_for_address (sp_gcd s) cur) as [d|er|];
    [|injection H as <- <-; exact HA|injection H as <- <-; exact HA].
  destruct (uadd (s_dbg s) (b_base d) (b_len d)) as [de|?|]; [|injection H as <- <-; exact HA|injection H as <- <-; exact HA].
  destruct (usub (s_dbg s) (N.min de e) cur) as [n|?|]; [|injection H as <- <-; exact HA|injection H as <- <-; exact HA].
  destruct (swallow_set s cur n attrs) as [rs s1] eqn:SW. pose proof (swallow_mono _ _ _ _ _ _ SW HA) as HA1.
  destruct (swallow_other _ _ _ _ _ _ SW) as [->| ->]; [|injection H as <- <-; exact HA1].
  destruct (N.land attrs PAGING_MASK =? 0); [eapply IH; eauto|].
  destruct (set_paging_attributes s1 cur n attrs) as [rp s2] eqn:SP. pose proof (set_paging_mono _ _ _ _ _ _ SP HA1) as HA2.
  destruct rp as [u|er| |].
  - eapply IH; eauto.
  - assert (G : forall X, (match assert_then s2 (SErr X) with
                         | (SPanic, s3) => (SPanic, s3)
                         | (r0, s3) => (r0, rollback s3 cur n (ms_attrs (b_st d)))
                         end) = (r, s') -> sp_alarm s' = true).
    { intros X HX. destruct (assert_then s2 (SErr X)) as [q s3] eqn:AT. apply assert_mono in AT; [|exact HA2].
      destruct q; injection HX as <- <-; exact AT. }
    destruct er; try (eapply G; exact H). eapply IH; eauto.
  - injection H as <- <-. exact HA2.
  - injection H as <- <-. exact HA2.
Qed.

Lemma descriptor_any : forall g a, map_ok g -> 0 < g_max g -> exists b, get_memory_descriptor_for_address g a = Ok b.
Proof.
  intros g a HM Hmax. destruct (find_block g a HM Hmax) as (pre & b & post & E & C & L & _).
  unfold get_memory_descriptor_for_address. destruct (N.eqb_spec (g_max g) 0); [lia|]. rewrite C, L. eauto.
Qed.

Lemma loop_keeps : forall fuel s cur e attrs nr r s', sp_wf s -> word e ->
  N.land attrs PAGING_MASK <> 0 ->
  set_attrs_loop fuel s cur e attrs nr = (r, s') -> r <> SPanic -> sp_alarm s' = false ->
  keeps s s' /\ (r = SOk tt \/ r = SErr NotReady -> forall x, cur <= x < e -> synced_at s' x).
Proof.
  induction fuel as [|fuel IH]; intros s cur e attrs nr r s' WF We Hm H Hp HA; cbn [set_attrs_loop] in H.
  { injection H as <- <-. split; [apply keeps_refl, WF|intros [X|X]; discriminate]. }
  destruct (N.leb_spec e cur) as [Le|Le].
  { assert (s' = notify s NSetAttributes) by congruence. subst s'. split; [apply keeps_notify, keeps_refl, WF|].
    intros _ x Hx. lia. }
  destruct (descriptor_any (sp_gcd s) cur (proj1 WF) ltac:(destruct WF as (_ & X & _); lia)) as (d & GD). rewrite GD in H.
  destruct (uadd (s_dbg s) (b_base d) (b_len d)) as [de|?|]; [|injection H as <- <-; congruence|injection H as <- <-; congruence].
  destruct (usub (s_dbg s) (N.min de e) cur) as [n|?|] eqn:US; [|injection H as <- <-; congruence|injection H as <- <-; congruence].
  assert (Wc : word cur) by (unfold word in *; lia).
  destruct (swallow_set s cur n attrs) as [rs s1] eqn:SW.
  destruct (swallow_other _ _ _ _ _ _ SW) as [->| ->]; [|injection H as <- <-; congruence].
  destruct (N.eqb_spec (N.land attrs PAGING_MASK) 0) as [|_]; [congruence|].
  assert (NX : word n /\ (cur + n < two64 -> N.min de e = cur + n)).
  { unfold usub in US. destruct (N.leb_spec cur (N.min de e)).
    - injection US as <-. unfold word in *. split; lia.
    - destruct (s_dbg s); [discriminate|]. injection US as <-.
      unfold word in *. rewrite (N.mod_small (N.min de e + two64 - cur) two64) by lia. split; lia. }
  destruct NX as (Wn & NX).
  destruct (sp_alarm s1) eqn:A1.
  { exfalso. destruct (set_paging_attributes s1 cur n attrs) as [rp s2] eqn:SP.
    pose proof (set_paging_mono _ _ _ _ _ _ SP A1) as HA2.
    assert (G : forall X, (match assert_then s2 (SErr X) with
                         | (SPanic, s3) => (SPanic, s3)
                         | (r0, s3) => (r0, rollback s3 cur n (ms_attrs (b_st d)))
                         end) = (r, s') -> sp_alarm s' = true).
    { intros X HX. destruct (assert_then s2 (SErr X)) as [q s3] eqn:AT. apply assert_mono in AT; [|exact HA2].
      destruct q; injection HX as <- <-; exact AT. }
    assert (sp_alarm s' = true); [|congruence].
    destruct rp as [u|er| |]; [eapply loop_mono; eauto| |injection H as <- <-; exact HA2|injection H as <- <-; exact HA2].
    destruct er; try (eapply G; exact H). eapply loop_mono; eauto. }
  destruct (swallow_ok _ _ _ _ _ SW A1) as (g' & HG & ->).
  pose proof WF as (HM & Hmax & _).
  destruct (set_gcd_ok _ _ _ _ _ HM Hmax Wc Wn HG) as (_ & _ & _ & _ & st & st' & L & R & _).
  rewrite NX in * by lia.
  destruct (set_paging_attributes (with_gcd s g') cur n attrs) as [rp s2] eqn:SP.
  destruct rp as [u|er| |]; [| |injection H as <- <-; congruence|destruct (set_paging_not_hang _ _ _ _ _ SP)].
  - assert (A2 : sp_alarm s2 = false).
    { destruct (sp_alarm s2) eqn:X; [|reflexivity]. apply loop_mono in H; [congruence|exact X]. }
    destruct (sp_pt s) as [t|] eqn:Ht.
    + destruct u. destruct (turn_ok s t cur n attrs g' s2 WF Ht Wc Wn HG SP A2) as (K & SY).
      destruct (IH s2 (cur + n) e attrs nr r s' (proj1 K) We Hm H Hp HA) as (K2 & SY2).
      split; [eapply keeps_trans; eauto|]. intros Hr x Hx.
      destruct (N.lt_ge_cases x (cur + n)).
      * destruct K2 as (_ & _ & _ & _ & _ & K2). apply K2, SY. unfold in_range. lia.
      * apply SY2; [exact Hr|lia].
    + unfold set_paging_attributes in SP. cbn [with_gcd sp_pt] in SP. rewrite Ht in SP. discriminate.
  - destruct (sp_alarm s2) eqn:A2.
    { exfalso. assert (sp_alarm s' = true); [|congruence].
      assert (G : forall X, (match assert_then s2 (SErr X) with
                         | (SPanic, s3) => (SPanic, s3)
                         | (r0, s3) => (r0, rollback s3 cur n (ms_attrs (b_st d)))
                         end) = (r, s') -> sp_alarm s' = true).
      { intros X HX. destruct (assert_then s2 (SErr X)) as [q s3] eqn:AT. apply assert_mono in AT; [|exact A2].
        destruct q; injection HX as <- <-; exact AT. }
      destruct er; try (eapply G; exact H). eapply loop_mono; eauto. }
    destruct (set_paging_err _ _ _ _ _ _ SP A2) as (Ht & -> & ->). cbn [with_gcd sp_pt] in Ht.
    pose proof (turn_no_table s cur n attrs g' WF Ht Wc Wn HG) as K.
    destruct (IH _ (cur + n) e attrs true r s' (proj1 K) We Hm H Hp HA) as (K2 & SY2).
    pose proof (keeps_trans _ _ _ K K2) as K3.
    split; [exact K3|]. intros Hr x Hx u sx Hu.
    destruct K3 as (_ & _ & _ & _ & KN & _). apply KN in Ht. congruence.
Qed.

Lemma uadd_word : forall dbg a b r, uadd (E := efi_error) dbg a b = Ok r -> word r.
Proof.
  unfold uadd, word. intros dbg a b r H. destruct (N.ltb_spec (a + b) two64); [now injection H as <-|].
  destruct dbg; [discriminate|]. injection H as <-. apply N.mod_lt. discriminate.
Qed.

Lemma set_attributes_keeps : forall s base len attrs r s', sp_wf s -> N.land attrs PAGING_MASK <> 0 ->
  spin_set_attributes s base len attrs = (r, s') -> r <> SPanic -> sp_alarm s' = false ->
  keeps s s' /\ (r = SOk tt \/ r = SErr NotReady -> base + len < two64 -> forall x, in_range base len x -> synced_at s' x).
Proof.
  intros s base len attrs r s' WF Hm H Hp HA. unfold spin_set_attributes in H.
  destruct (uadd (s_dbg s) base len) as [e|?|] eqn:UA; [|injection H as <- <-; congruence|injection H as <- <-; congruence].
  destruct (loop_keeps _ _ _ _ _ _ _ _ WF (uadd_word _ _ _ _ UA) Hm H Hp HA) as (K & SY).
  split; [exact K|]. intros Hr Hb x Hx. apply SY; [exact Hr|].
  rewrite uadd_small in UA by exact Hb. injection UA as <-. exact Hx.
Qed.

Lemma set_attributes_mono : forall s b l a r s', spin_set_attributes s b l a = (r, s') -> sp_alarm s = true -> sp_alarm s' = true.
Proof.
  intros s b l a r s' H HA. unfold spin_set_attributes in H.
  destruct (uadd (s_dbg s) b l) as [e|?|]; [eapply loop_mono; eauto| |]; injection H as <- <-; exact HA.
Qed.

(** ** The other calls *)

(** A change of the memory map alone that leaves every expected mapping as it was. *)
Lemma keeps_same_mapping : forall s g', sp_wf s -> map_ok g' -> g_max g' = g_max (sp_gcd s) -> g_dbg g' = g_dbg (sp_gcd s) ->
  (forall a st', state_at (g_blocks g') a = Some st' ->
     exists st, state_at (g_blocks (sp_gcd s)) a = Some st /\ expected_mapping st' = expected_mapping st) ->
  keeps s (with_gcd s g').
Proof.
  intros s g' (HM & Hmax & W) M F1 F2 E. unfold keeps. cbn [with_gcd sp_gcd sp_default sp_pt]. split.
  { split; [exact M|]. split; [cbn; rewrite F1; exact Hmax|exact W]. }
  repeat (split; [first [assumption|reflexivity|tauto]|]).
  intros a SY t st' Ht Hs. cbn in Ht, Hs. destruct (E a st' Hs) as (st & H1 & ->). apply (SY t st Ht H1).
Qed.

Lemma effect_mapping : forall o s s', call_effect o s s' ->
  match o with OpAdd _ _ _ _ | OpAllocate _ _ _ _ _ _ | OpSetCapabilities _ _ _ => True | _ => False end ->
  expected_mapping s' = expected_mapping s.
Proof.
  intros o s s' E T. destruct o; try contradiction; cbn [call_effect] in E.
  - destruct E as (_ & E & N & ->). unfold expected_mapping. rewrite E. cbn. destruct ty; try reflexivity.
  - destruct E as (_ & E & N & _ & _ & _ & ->). unfold expected_mapping. cbn [ms_type ms_attrs]. rewrite E. reflexivity.
  - destruct E as (_ & _ & ->). unfold expected_mapping. reflexivity.
Qed.

Lemma gcd_call_keeps : forall s o r g', sp_wf s -> op_wf o -> gcd_step (sp_gcd s) o = (r, g') -> r <> Panic ->
  match o with OpAdd _ _ _ _ | OpAllocate _ _ _ _ _ _ | OpSetCapabilities _ _ _ => True
  | OpRemove _ _ | OpFree _ _ => exists e, r = Err e | _ => False end ->
  keeps s (with_gcd s g').
Proof.
  intros s o r g' WF Wo H Hp T. pose proof WF as (HM & Hmax & W).
  destruct (step_frame (sp_gcd s) o r g') as (_ & F1 & F2 & _ & M'); auto.
  { split; [exact Hmax|auto]. }
  apply keeps_same_mapping; auto.
  intros a st' Hs.
  destruct (step_at (sp_gcd s) o r g' a HM Hmax Wo H Hp) as [E|(b & l & x & x' & v & C & I & _ & S1 & S2 & E)].
  - rewrite E in Hs. eauto.
  - exists x. split; [exact S1|]. rewrite S2 in Hs. injection Hs as <-.
    destruct E as [E|(_ & _ & E1 & _ & E2 & _ & E3)].
    + destruct o; try contradiction; try (eapply effect_mapping; [exact E|exact I0]).
      * eapply effect_mapping; [exact E|exact T].
      * exfalso. destruct T as (e & ->).
        pose proof (gcd_step_map _ _ _ _ HM Hmax Wo H) as P. cbn [step_post] in P.
        destruct P as [->|(X & _)]; [|discriminate]. rewrite S1 in S2. injection S2 as <-.
        cbn [call_effect] in E. destruct E as (_ & N & E). apply N. rewrite E. reflexivity.
      * eapply effect_mapping; [exact E|exact T].
      * destruct T as (e & ->).
        pose proof (gcd_step_map _ _ _ _ HM Hmax Wo H) as P. cbn [step_post] in P.
        destruct P as [->|(_ & _ & P)]; [congruence|].
        destruct P as (b' & l' & q & C1 & C2 & C3 & C4 & C5 & _ & _ & C6 & C7).
        cbn [call_range] in C, C1. rewrite C in C1. injection C1 as <- <-.
        destruct (C6 a I) as (Y1 & Y2). rewrite S1 in Y1. injection Y1 as <-. rewrite S2 in Y2. injection Y2 as ->.
        reflexivity.
      * eapply effect_mapping; [exact E|exact T].
    + unfold expected_mapping. rewrite E2, E3. reflexivity.
Qed.

Lemma keeps_same_gcd_pt : forall s s1 s2, keeps s s1 -> sp_gcd s2 = sp_gcd s1 -> sp_pt s2 = sp_pt s1 -> sp_default s2 = sp_default s1 ->
  keeps s s2.
Proof.
  unfold keeps, sp_wf, synced_at. intros s s1 s2 H -> -> ->. exact H.
Qed.

(** Memory that goes away (removed or freed) and whose pages end up unmapped. *)
Lemma keeps_unmapped : forall s g' t' b l st st' s', sp_wf s -> map_ok g' -> same_frame (sp_gcd s) g' ->
  page_aligned b -> page_aligned l ->
  range_changed (g_blocks (sp_gcd s)) (g_blocks g') b l st st' -> expected_mapping st' = None ->
  (forall p, t' p = match sp_pt s with Some t => if in_region b l p then None else t p | None => None end) ->
  sp_gcd s' = g' -> sp_default s' = sp_default s ->
  sp_pt s' = match sp_pt s with Some t => Some t' | None => None end ->
  keeps s s'.
Proof.
  intros s g' t' b l st st' s' (HM & Hmax & W) M F A1 A2 (RC1 & RC2) EX T G D P.
  pose proof (same_frame_max _ _ F) as (F1 & F2 & _).
  unfold keeps, sp_wf. rewrite G, P, D. destruct (sp_pt s) as [t|] eqn:Ht.
  - split.
    { split; [exact M|]. split; [rewrite F1; exact Hmax|]. intros u [= <-] p a. rewrite T.
      destruct (in_region b l p); [discriminate|apply (W t eq_refl)]. }
    repeat (split; [first [assumption|reflexivity|split; discriminate]|]).
    intros x SY u sx Hu Hs. rewrite P in Hu. injection Hu as <-. rewrite G in Hs.
    change (x / 4096) with (x / UEFI_PAGE_SIZE). rewrite T.
    destruct (in_region b l (x / UEFI_PAGE_SIZE)) eqn:IR.
    + apply (in_region_addr b l x A1 A2) in IR. destruct (RC1 x IR) as (_ & Y). rewrite Y in Hs. injection Hs as <-.
      symmetry. exact EX.
    + rewrite RC2 in Hs by (intros X; apply (in_region_addr b l x A1 A2) in X; congruence).
      apply (SY t sx Ht Hs).
  - split.
    { split; [exact M|]. split; [rewrite F1; exact Hmax|]. intros u [=]. }
    repeat (split; [first [assumption|reflexivity|tauto]|]).
    intros x _ u sx Hu. rewrite P in Hu. discriminate.
Qed.

Lemma keeps_no_table : forall s g' s', sp_wf s -> sp_pt s = None -> map_ok g' -> g_max g' = g_max (sp_gcd s) ->
  g_dbg g' = g_dbg (sp_gcd s) -> sp_gcd s' = g' -> sp_pt s' = None -> sp_default s' = sp_default s -> keeps s s'.
Proof.
  intros s g' s' (HM & Hmax & W) Ht M F1 F2 G P D. unfold keeps, sp_wf. rewrite G, P, D, Ht.
  split.
  { split; [exact M|]. split; [rewrite F1; exact Hmax|]. intros u [=]. }
  repeat (split; [first [assumption|reflexivity|tauto]|]). intros a _ u st Hu. congruence.
Qed.

Lemma gcd_allocate : forall g at_ ty sh len im dv v g', map_ok g -> 0 < g_max g < two64 ->
  op_wf (OpAllocate at_ ty sh len im dv) -> allocate_memory_space g at_ ty sh len im dv = (Ok v, g') ->
  map_ok g' /\ 0 < len /\ v + len <= g_max g.
Proof.
  intros g at_ ty sh len im dv v g' HM Hmax Wo H.
  pose proof (gcd_step_map g (OpAllocate at_ ty sh len im dv) (Ok v) g' HM Hmax Wo H) as P.
  cbn [step_post is_free] in P. destruct P as [(X & _)|(_ & M & b & l & s & s' & C & L & R & _)]; [discriminate|].
  cbn [call_range] in C. injection C as <- <-. auto.
Qed.

Lemma land_lor_mask : forall a d, N.land d PAGING_MASK <> 0 -> N.land (N.lor (N.land a CACHE_ATTRIBUTE_MASK) d) PAGING_MASK <> 0.
Proof.
  intros a d H X. apply H. rewrite N.land_lor_distr_l in X. apply N.lor_eq_0_iff in X. tauto.
Qed.

Lemma step_keeps : forall s o r s', sp_wf s -> sop_wf o -> N.land (sp_default s) PAGING_MASK <> 0 ->
  careful s o -> spin_step s o = (r, s') -> r <> SPanic -> sp_alarm s' = false -> keeps s s'.
Proof.
  intros s o r s' WF Wo Hd C H Hp HA. pose proof WF as (HM & Hmax & W).
  destruct o; cbn [spin_step sop_wf careful] in *.
  - (* add *)
    unfold spin_add in H. destruct (add_memory_space (sp_gcd s) ty base len caps) as [q g'] eqn:E.
    assert (K : q <> Panic -> keeps s (with_gcd s g')).
    { intros N. apply (gcd_call_keeps s (OpAdd ty base len caps) q g' WF Wo E N I). }
    destruct q; injection H as <- <-; try congruence; try apply keeps_notify; apply K; discriminate.
  - (* remove *)
    unfold spin_remove in H. destruct (remove_memory_space (sp_gcd s) base len) as [q g'] eqn:E.
    destruct q as [u|e|]; [| |injection H as <- <-; congruence].
    + pose proof (gcd_step_map (sp_gcd s) (OpRemove base len) (Ok 0) g' HM Hmax Wo) as P.
      cbn [gcd_step] in P. rewrite E in P. specialize (P eq_refl). cbn [step_post is_free call_range] in P.
      destruct P as [(X & _)|(F & M & b & l & st & st' & C1 & L & R & EF & RC)]; [discriminate|].
      injection C1 as <- <-. cbn [call_effect] in EF. destruct EF as (_ & _ & ->).
      destruct C as (A1 & A2 & CF). cbn [with_gcd sp_pt] in H.
      pose proof (same_frame_max _ _ F) as (F1 & F2 & F3).
      destruct (sp_pt s) as [t|] eqn:Ht.
      * destruct (take_fault (with_gcd s g')) as (f, s1) eqn:TF.
        assert (f = None).
        { unfold take_fault in TF. cbn [with_gcd sp_faults] in TF.
          destruct CF as [X|(q & X)]; rewrite X in TF; injection TF as <- _; reflexivity. }
        subst f. apply take_fault_fields in TF. destruct TF as (T1 & T2 & T3 & T4 & T5).
        cbn [with_gcd sp_gcd sp_pt sp_default] in *.
        unfold pt_unmap in H. rewrite (proj2 (region_ok_spec base len)) in H by (split; [|split]; [auto|auto|lia]).
        match type of H with context[if ?c then Err _ else _] => destruct c eqn:FN end.
        -- rewrite forallb_region in FN. cbn [sunit] in H. injection H as <- <-.
           eapply (keeps_unmapped s g' t base len st); eauto; cbn [notify sp_gcd sp_pt sp_default]; rewrite ?Ht; auto.
           { intros p. destruct (in_region base len p) eqn:IR; [apply FN, IR|reflexivity]. }
           { rewrite T2. exact Ht. }
        -- cbn [sunit] in H. injection H as <- <-.
           eapply (keeps_unmapped s g' _ base len st); eauto; cbn [notify with_pt sp_gcd sp_pt sp_default]; rewrite ?Ht; auto.
           { reflexivity. }
      * cbn [sunit] in H. injection H as <- <-.
        eapply (keeps_no_table s g'); eauto.
    + cbn [sunit] in H. injection H as <- <-.
      apply (gcd_call_keeps s (OpRemove base len) (Err e) g' WF Wo); [cbn [gcd_step]; rewrite E; reflexivity|discriminate|eauto].
  - (* allocate *)
    unfold spin_allocate in H.
    destruct (allocate_memory_space (sp_gcd s) at_ ty align_shift len image device) as [q g'] eqn:E.
    assert (K : q <> Panic -> keeps s (with_gcd s g')).
    { intros N. apply (gcd_call_keeps s (OpAllocate at_ ty align_shift len image device) q g' WF Wo E N I). }
    destruct q as [v|e|]; [|injection H as <- <-; apply K; discriminate|injection H as <- <-; congruence].
    specialize (K ltac:(discriminate)).
    set (d := get_memory_descriptor_for_address g' v) in *.
    destruct d as [bl|e|] eqn:ED; [| |injection H as <- <-; congruence].
    all: cbv zeta in H;
      match type of H with context[spin_set_attributes ?x ?y ?z ?w] =>
        destruct (spin_set_attributes x y z w) as [q2 s2] eqn:SA; set (at2 := w) in SA end;
      assert (A2 : q2 <> SPanic /\ sp_alarm s2 = false) by
       (destruct q2 as [u|e2| |];
        [injection H as <- <-; split; [discriminate|exact HA]
        |destruct e2; first [injection H as <- <-; split; [discriminate|exact HA]
          |destruct (assert_then s2 (SOk v)) as [q3 s3] eqn:AT; exfalso;
           unfold assert_then in AT; destruct (s_dbg s2); injection AT as <- <-; injection H as <- <-; cbn in HA; congruence]
        |injection H as <- <-; congruence
        |injection H as <- <-; split; [discriminate|exact HA]]);
      destruct A2 as (Q2 & A2);
      assert (K2 : keeps (with_gcd s g') s2) by
       (eapply set_attributes_keeps; [exact (proj1 K)| |exact SA|exact Q2|exact A2]; subst at2; apply land_lor_mask; exact Hd);
      eapply keeps_same_gcd_pt; [eapply keeps_trans; [exact K|exact K2]| | |];
      (destruct q2 as [u|e2| |]; [|destruct e2| |]);
      try (injection H as <- <-; reflexivity); try congruence;
      (destruct (assert_then s2 (SOk v)) as [q3 s3] eqn:AT; exfalso;
       unfold assert_then in AT; destruct (s_dbg s2); injection AT as <- <-; injection H as <- <-; cbn in HA; congruence).
  - (* free *)
    unfold spin_free in H. destruct (free_memory_space (sp_gcd s) base len) as [q g'] eqn:E.
    destruct q as [u|e|]; [| |injection H as <- <-; congruence].
    + pose proof (gcd_step_map (sp_gcd s) (OpFree base len) (Ok 0) g' HM Hmax Wo) as P.
      cbn [gcd_step] in P. rewrite E in P. specialize (P eq_refl). cbn [step_post is_free call_range] in P.
      destruct P as [(_ & X & _)|(F & M & b & l & st & st' & C1 & L & R & EF & RC)]; [congruence|].
      injection C1 as <- <-. cbn [call_effect] in EF. destruct EF as (_ & NE & _ & ->).
      pose proof (same_frame_max _ _ F) as (F1 & F2 & F3). cbn [with_gcd sp_pt] in H.
      destruct (sp_pt s) as [t|] eqn:Ht.
      * destruct (take_fault (with_gcd s g')) as (f, s1) eqn:TF.
        apply take_fault_fields in TF. destruct TF as (T1 & T2 & T3 & T4 & T5).
        cbn [with_gcd sp_gcd sp_pt sp_default] in *.
        destruct (pt_unmap t base len f) as [t'|x|] eqn:PU.
        -- unfold pt_unmap in PU. destruct (region_ok base len) eqn:RO; [|discriminate].
           apply region_ok_spec in RO. destruct RO as (A1 & A2 & A3).
           destruct f; [discriminate|].
           match type of PU with (if ?c then _ else _) = _ => destruct c; [discriminate|] end.
           injection PU as <-. cbn [sunit] in H. injection H as <- <-.
           eapply (keeps_unmapped s g' _ base len st); eauto; cbn [notify with_pt sp_gcd sp_pt sp_default]; rewrite ?Ht; auto.
           { unfold expected_mapping. cbn [ms_type ms_attrs].
             replace (N.testbit (N.lor MEMORY_RP (N.land (ms_attrs st) CACHE_ATTRIBUTE_MASK)) 13) with true
               by (rewrite N.lor_spec; reflexivity).
             destruct (ms_type st); reflexivity. }
           { reflexivity. }
        -- exfalso. destruct (assert_then s1 (SOk tt)) as [q3 s3] eqn:AT.
           unfold assert_then in AT. destruct (s_dbg s1); injection AT as <- <-; cbn [sunit] in H; injection H as <- <-;
             cbn in HA; congruence.
        -- exfalso. destruct (assert_then s1 (SOk tt)) as [q3 s3] eqn:AT.
           unfold assert_then in AT. destruct (s_dbg s1); injection AT as <- <-; cbn [sunit] in H; injection H as <- <-;
             cbn in HA; congruence.
      * cbn [sunit] in H. injection H as <- <-. eapply (keeps_no_table s g'); eauto.
    + assert (K : keeps s (with_gcd s g')).
      { apply (gcd_call_keeps s (OpFree base len) (Err e) g' WF Wo); [cbn [gcd_step]; rewrite E; reflexivity|discriminate|eauto]. }
      destruct e; cbn [sunit] in H; injection H as <- <-; exact K.
  - (* set attributes *)
    destruct (spin_set_attributes s base len attrs) as [q s1] eqn:E.
    assert (X : q <> SPanic /\ s1 = s') by (destruct q; cbn [sunit] in H; injection H as <- <-; split; congruence).
    destruct X as (X & ->). eapply set_attributes_keeps; eauto.
  - (* set capabilities *)
    unfold spin_set_capabilities in H. destruct (set_memory_space_capabilities (sp_gcd s) base len caps) as [q g'] eqn:E.
    assert (K : q <> Panic -> keeps s (with_gcd s g')).
    { intros N. destruct q as [u|e|]; [| |congruence];
        (eapply (gcd_call_keeps s (OpSetCapabilities base len caps)); [exact WF|exact Wo|cbn [gcd_step]; rewrite E; reflexivity|discriminate|exact I]). }
    destruct q; cbn [sunit] in H; injection H as <- <-; try congruence; try apply keeps_notify; apply K; discriminate.
  - injection H as <- <-. apply keeps_same_mapping; auto. intros a st' Hs. eauto.
  - injection H as <- <-. apply keeps_same_mapping; auto. intros a st' Hs. eauto.
Qed.

(** ** init_paging *)
Lemma map_ranges_mono : forall l s r s', map_ranges s l = (r, s') -> sp_alarm s = true -> sp_alarm s' = true.
Proof.
  induction l as [|[[b n] a] l IH]; intros s r s' H HA; cbn [map_ranges] in H; [injection H as <- <-; exact HA|].
  destruct (spin_set_attributes s b n a) as [q s1] eqn:SA. apply set_attributes_mono in SA; [|exact HA].
  destruct q; [eauto| |injection H as <- <-; exact SA|injection H as <- <-; exact SA].
  destruct (assert_then s1 (SOk tt)) as [q2 s2] eqn:AT. apply assert_mono in AT; [|exact SA].
  destruct q2; [eauto|injection H as <- <-; exact AT|injection H as <- <-; exact AT|injection H as <- <-; exact AT].
Qed.

Lemma map_or_panic_mono : forall s b n a r s', map_or_panic s b n a = (r, s') -> sp_alarm s = true -> sp_alarm s' = true.
Proof.
  intros s b n a r s' H HA. unfold map_or_panic in H. destruct (spin_set_attributes s b n a) as [q s1] eqn:SA.
  apply set_attributes_mono in SA; [|exact HA]. assert (s1 = s') by (destruct q; congruence). now subst.
Qed.

Lemma map_sections_mono : forall l s b r s', map_sections s b l = (r, s') -> sp_alarm s = true -> sp_alarm s' = true.
Proof.
  induction l as [|[[va n] code] l IH]; intros s b r s' H HA; cbn [map_sections] in H; [injection H as <- <-; exact HA|].
  destruct (core_attrs s b (if code then MEMORY_RO else MEMORY_XP)); [|injection H as <- <-; exact HA|injection H as <- <-; exact HA].
  destruct (uadd (s_dbg s) b va); [|injection H as <- <-; exact HA|injection H as <- <-; exact HA].
  destruct (map_or_panic s a0 n a) as [q s1] eqn:MP. apply map_or_panic_mono in MP; [|exact HA].
  destruct q; [eauto| | |]; injection H as <- <-; exact MP.
Qed.

Lemma map_core_mono : forall l s b n r s', map_core s b n l = (r, s') -> sp_alarm s = true -> sp_alarm s' = true.
Proof.
  intros l s b n r s' H HA. unfold map_core in H.
  destruct (core_attrs s b MEMORY_XP); [|injection H as <- <-; exact HA|injection H as <- <-; exact HA].
  destruct (map_or_panic s b n a) as [q s1] eqn:MP. apply map_or_panic_mono in MP; [|exact HA].
  destruct q; [eapply map_sections_mono; eauto| | |]; injection H as <- <-; exact MP.
Qed.

Lemma unmap0_mono : forall s r s', unmap_page_0 s = (r, s') -> sp_alarm s = true -> sp_alarm s' = true.
Proof.
  intros s r s' H HA. unfold unmap_page_0 in H.
  destruct (get_memory_descriptor_for_address (sp_gcd s) 0); [|injection H as <- <-; exact HA|injection H as <- <-; exact HA].
  destruct (mt_eqb _ _); [injection H as <- <-; exact HA|].
  destruct (spin_set_attributes s 0 UEFI_PAGE_SIZE MEMORY_RP) as [q s1] eqn:SA. apply set_attributes_mono in SA; [|exact HA].
  destruct q; [injection H as <- <-; exact SA|eapply assert_mono; eauto|injection H as <- <-; exact SA|injection H as <- <-; exact SA].
Qed.

Lemma mono_false : forall x y : bool, (x = true -> y = true) -> y = false -> x = false.
Proof. intros x y H1 H2. destruct x; [|reflexivity]. rewrite H1 in H2 by reflexivity. exact H2. Qed.

Lemma map_ranges_spec : forall l s r s', sp_wf s -> map_ranges s l = (r, s') ->
  (forall b n a, In (b, n, a) l -> N.land a PAGING_MASK <> 0) -> r <> SPanic -> sp_alarm s' = false ->
  keeps s s' /\
  (r = SOk tt -> forall b n a x, In (b, n, a) l -> b + n < two64 -> in_range b n x -> synced_at s' x).
Proof.
  induction l as [|[[b n] a] l IH]; intros s r s' WF H HM Hp HA; cbn [map_ranges] in H.
  { injection H as <- <-. split; [apply keeps_refl, WF|]. intros _ ? ? ? ? []. }
  destruct (spin_set_attributes s b n a) as [q s1] eqn:SA.
  assert (Ha : N.land a PAGING_MASK <> 0) by (eapply HM; left; reflexivity).
  destruct q as [u|e| |].
  - pose proof (mono_false _ _ (map_ranges_mono _ _ _ _ H) HA) as A1.
    destruct u. destruct (set_attributes_keeps _ _ _ _ _ _ WF Ha SA ltac:(discriminate) A1) as (K & SY).
    destruct (IH s1 r s' (proj1 K) H) as (K2 & SY2); auto; [intros; eapply HM; right; eauto|].
    split; [eapply keeps_trans; eauto|].
    intros Hr b' n' a' x [[= <- <- <-]|Hin] Hb Hx; [|eapply SY2; eauto].
    destruct K2 as (_ & _ & _ & _ & _ & K2). apply K2, SY; auto.
  - exfalso. destruct (assert_then s1 (SOk tt)) as [q2 s2] eqn:AT. unfold assert_then in AT.
    destruct (s_dbg s1); injection AT as <- <-.
    + injection H as <- <-. congruence.
    + apply map_ranges_mono in H; [congruence|reflexivity].
  - injection H as <- <-. congruence.
  - injection H as <- <-.
    destruct (set_attributes_keeps _ _ _ _ _ _ WF Ha SA ltac:(discriminate) HA) as (K & _).
    split; [exact K|discriminate].
Qed.

Lemma map_or_panic_spec : forall s b n a r s', sp_wf s -> N.land a PAGING_MASK <> 0 -> map_or_panic s b n a = (r, s') ->
  r <> SPanic -> sp_alarm s' = false -> keeps s s'.
Proof.
  intros s b n a r s' WF Ha H Hp HA. unfold map_or_panic in H. destruct (spin_set_attributes s b n a) as [q s1] eqn:SA.
  assert (s1 = s') by (destruct q; congruence). subst s1.
  assert (q = r) by (destruct q; congruence). subst q. eapply set_attributes_keeps; eauto.
Qed.

Lemma core_attrs_mask : forall s b acc a, (acc = MEMORY_XP \/ acc = MEMORY_RO) -> core_attrs s b acc = Ok a -> N.land a PAGING_MASK <> 0.
Proof.
  intros s b acc a Hacc H. unfold core_attrs in H. destruct (get_memory_descriptor_for_address (sp_gcd s) b) as [d|?|]; try discriminate.
  intros X. assert (E : N.lor acc (N.land (ms_attrs (b_st d)) CACHE_ATTRIBUTE_MASK) = a) by congruence.
  rewrite <- E, N.land_lor_distr_l in X. apply N.lor_eq_0_iff in X. destruct X as (X & _).
  destruct Hacc as [-> | ->]; discriminate.
Qed.

Lemma map_sections_spec : forall l s b r s', sp_wf s -> map_sections s b l = (r, s') ->
  r <> SPanic -> sp_alarm s' = false -> keeps s s'.
Proof.
  induction l as [|[[va n] code] l IH]; intros s b r s' WF H Hp HA.
  { cbn in H. injection H as <- <-. apply keeps_refl, WF. }
  cbn [map_sections] in H.
  destruct (core_attrs s b (if code then MEMORY_RO else MEMORY_XP)) as [a|?|] eqn:CA;
    [|injection H as <- <-; congruence|injection H as <- <-; congruence].
  apply core_attrs_mask in CA; [|destruct code; auto].
  destruct (uadd (s_dbg s) b va) as [base|?|]; [|injection H as <- <-; congruence|injection H as <- <-; congruence].
  destruct (map_or_panic s base n a) as [q s1] eqn:MP.
  pose proof (map_or_panic_spec _ _ _ _ _ _ WF CA MP) as M2.
  destruct q as [u|e| |]; [|injection H as <- <-; auto|injection H as <- <-; congruence|injection H as <- <-; auto].
  pose proof (mono_false _ _ (map_sections_mono _ _ _ _ _ H) HA) as A1.
  specialize (M2 ltac:(discriminate) A1).
  eapply keeps_trans; [exact M2|]. eapply IH; eauto. exact (proj1 M2).
Qed.

Lemma map_core_spec : forall l s b n r s', sp_wf s -> map_core s b n l = (r, s') ->
  r <> SPanic -> sp_alarm s' = false -> keeps s s'.
Proof.
  intros l s b n r s' WF H Hp HA. unfold map_core in H.
  destruct (core_attrs s b MEMORY_XP) as [a|?|] eqn:CA; [|injection H as <- <-; congruence|injection H as <- <-; congruence].
  apply core_attrs_mask in CA; [|auto].
  destruct (map_or_panic s b n a) as [q s1] eqn:MP.
  pose proof (map_or_panic_spec _ _ _ _ _ _ WF CA MP) as M2.
  destruct q as [u|e| |]; [|injection H as <- <-; auto|injection H as <- <-; congruence|injection H as <- <-; auto].
  pose proof (mono_false _ _ (map_sections_mono _ _ _ _ _ H) HA) as A1.
  specialize (M2 ltac:(discriminate) A1).
  eapply keeps_trans; [exact M2|]. eapply map_sections_spec; eauto. exact (proj1 M2).
Qed.

Lemma unmap0_spec : forall s r s', sp_wf s -> unmap_page_0 s = (r, s') -> r <> SPanic -> sp_alarm s' = false -> keeps s s'.
Proof.
  intros s r s' WF H Hp HA. unfold unmap_page_0 in H.
  destruct (get_memory_descriptor_for_address (sp_gcd s) 0) as [d|?|];
    [|injection H as <- <-; apply keeps_refl, WF|injection H as <- <-; congruence].
  destruct (mt_eqb (ms_type (b_st d)) NonExistent); [injection H as <- <-; apply keeps_refl, WF|].
  destruct (spin_set_attributes s 0 UEFI_PAGE_SIZE MEMORY_RP) as [q s1] eqn:SA.
  assert (RP : N.land MEMORY_RP PAGING_MASK <> 0) by (intros X; vm_compute in X; discriminate).
  destruct q as [u|e| |].
  - injection H as <- <-. exact (proj1 (set_attributes_keeps _ _ _ _ _ _ WF RP SA Hp HA)).
  - apply assert_alarm in H; congruence.
  - injection H as <- <-. congruence.
  - injection H as <- <-. exact (proj1 (set_attributes_keeps _ _ _ _ _ _ WF RP SA Hp HA)).
Qed.

Lemma state_in_block : forall {St} (l : list (block St)) a st, state_at l a = Some st ->
  exists b, In b l /\ b_st b = st /\ in_range (b_base b) (b_len b) a.
Proof.
  induction l as [|b l IH]; intros a st H; cbn [state_at] in H; [discriminate|].
  destruct ((b_base b <=? a) && (a <? b_end b)) eqn:E.
  - injection H as <-. exists b. split; [left; reflexivity|]. split; [reflexivity|].
    apply andb_true_iff in E. destruct E as (E1 & E2). apply N.leb_le in E1. apply N.ltb_lt in E2.
    unfold in_range, b_end in *. lia.
  - destruct (IH a st H) as (b' & I & X). exists b'. split; [right; exact I|exact X].
Qed.

Lemma block_bound : forall {St} (l : list (block St)) lo hi b, tiles lo hi l -> In b l -> b_base b + b_len b <= hi.
Proof.
  induction l as [|c l IH]; intros lo hi b H HI; cbn [tiles] in H; [destruct HI|].
  destruct H as (H1 & H2 & H3). destruct HI as [->|HI]; [|eauto].
  apply tiles_le in H3. exact H3.
Qed.

(** Unallocated memory that is not memory-mapped I/O or reserved is read-protected. *)
Definition free_memory_protected (g : gcd) : Prop :=
  forall a st, state_at (g_blocks g) a = Some st -> ms_alloc st = false ->
    ms_type st <> NonExistent -> ms_type st <> MemoryMappedIo -> ms_type st <> Reserved ->
    N.testbit (ms_attrs st) 13 = true.

Definition io_page_aligned (g : gcd) : Prop :=
  forall b, In b (g_blocks g) -> ms_alloc (b_st b) = false ->
    ms_type (b_st b) = MemoryMappedIo \/ ms_type (b_st b) = Reserved ->
    page_aligned (b_base b) /\ page_aligned (b_len b).

Lemma page_down_aligned : forall n, page_aligned n -> page_down n = n /\ page_down (n + UEFI_PAGE_MASK) = n.
Proof.
  unfold page_aligned, page_down, UEFI_PAGE_SIZE, UEFI_PAGE_MASK. intros n H.
  change 0x1000 with 4096 in *. change 0xFFF with 4095. split; [lia|].
  rewrite N.add_mod, H by discriminate. change ((0 + 4095 mod 4096) mod 4096) with 4095. lia.
Qed.

Lemma xp_mask : forall a, N.land (N.lor (N.land a CACHE_ATTRIBUTE_MASK) MEMORY_XP) PAGING_MASK <> 0.
Proof.
  intros a X. rewrite N.land_lor_distr_l in X. apply N.lor_eq_0_iff in X. destruct X as (_ & X). discriminate.
Qed.

Lemma init_paging_sync : forall s core_base core_len sections s',
  map_ok (sp_gcd s) -> 0 < g_max (sp_gcd s) < two64 -> free_memory_protected (sp_gcd s) -> io_page_aligned (sp_gcd s) ->
  init_paging s core_base core_len sections = (SOk tt, s') -> sp_alarm s' = false ->
  sp_wf s' /\ in_sync s' /\ sp_default s' = sp_default s /\ sp_pt s' <> None.
Proof.
  intros s cb cl secs s' HM Hmax FP IA H HA. unfold init_paging in H.
  destruct (N.eqb_spec (g_max (sp_gcd s)) 0) as [|_]; [discriminate|]. cbv zeta in H.
  set (s0 := with_pt s (fun _ => None)) in *.
  assert (WF0 : sp_wf s0).
  { split; [exact HM|]. split; [exact Hmax|]. intros t [= <-] p a [=]. }
  destruct (map_ranges s0 (map allocated_request (allocated_descriptors (sp_gcd s)))) as [q1 s1] eqn:M1.
  destruct q1 as [u1|e1| |]; try discriminate. destruct u1.
  destruct (map_core s1 cb cl secs) as [q2 s2] eqn:M2.
  destruct q2 as [u2|e2| |]; try discriminate. destruct u2.
  destruct (map_ranges s2 (map mmio_request (mmio_and_reserved_descriptors (sp_gcd s)))) as [q3 s3] eqn:M3.
  destruct q3 as [u3|e3| |]; try discriminate. destruct u3.
  assert (IO : forall b n a, In (b, n, a) (map mmio_request (mmio_and_reserved_descriptors (sp_gcd s))) -> N.land a PAGING_MASK <> 0).
  { intros b n a Hin. apply in_map_iff in Hin. destruct Hin as (d & E & _). injection E as <- <- <-. apply xp_mask. }
  pose proof (mono_false _ _ (unmap0_mono _ _ _ H) HA) as A3.
  pose proof (mono_false _ _ (map_ranges_mono _ _ _ _ M3) A3) as A2.
  pose proof (mono_false _ _ (map_core_mono _ _ _ _ _ _ M2) A2) as A1.
  destruct (map_ranges_spec _ _ _ _ WF0 M1) as (K1 & SY1); [|discriminate|exact A1|].
  { intros b n a Hin. apply in_map_iff in Hin. destruct Hin as (d & E & _). injection E as <- <- <-. apply xp_mask. }
  pose proof (map_core_spec _ _ _ _ _ _ (proj1 K1) M2 ltac:(discriminate) A2) as M2b.
  destruct (map_ranges_spec _ _ _ _ (proj1 M2b) M3 IO ltac:(discriminate) A3) as (K3 & SY3).
  pose proof (unmap0_spec _ _ _ (proj1 K3) H ltac:(discriminate) HA) as K4.
  pose proof (keeps_trans _ _ _ M2b K3) as K23. pose proof (keeps_trans _ _ _ K23 K4) as K24.
  pose proof (keeps_trans _ _ _ K1 K24) as K04.
  split; [exact (proj1 K4)|].
  assert (D : sp_default s' = sp_default s).
  { destruct K04 as (_ & _ & _ & D & _). exact D. }
  assert (PN : sp_pt s' <> None).
  { destruct K04 as (_ & _ & _ & _ & PN & _). intros X. apply PN in X. discriminate. }
  split; [|split; assumption].
  intros a.
  destruct (state_at (g_blocks (sp_gcd s)) a) as [st|] eqn:SA.
  2:{ destruct K04 as (_ & _ & _ & _ & _ & K04). apply K04. intros t st _ X.
      change (state_at (g_blocks (sp_gcd s)) a = Some st) in X. congruence. }
  destruct (state_in_block _ _ _ SA) as (b & Hin & Hst & Hr).
  assert (BB : b_base b + b_len b < two64).
  { destruct HM as (HT & _). pose proof (block_bound _ _ _ _ HT Hin). lia. }
  destruct (ms_alloc st) eqn:AL.
  - destruct K24 as (_ & _ & _ & _ & _ & K24). apply K24.
    apply (SY1 eq_refl (b_base b) (b_len b) (N.lor (N.land (ms_attrs (b_st b)) CACHE_ATTRIBUTE_MASK) MEMORY_XP)); auto.
    apply in_map_iff. exists b. split; [reflexivity|]. apply filter_In. split; [exact Hin|]. now rewrite Hst.
  - assert (IOC : ms_type st = MemoryMappedIo \/ ms_type st = Reserved ->
                  synced_at s' a).
    { intros T. destruct (IA b Hin) as (P1 & P2); [now rewrite Hst|now rewrite Hst|].
      destruct K4 as (_ & _ & _ & _ & _ & K4). apply K4.
      apply (SY3 eq_refl (b_base b) (b_len b) (N.lor (N.land (ms_attrs (b_st b)) CACHE_ATTRIBUTE_MASK) MEMORY_XP)); auto.
      apply in_map_iff. exists b. split.
      { unfold mmio_request. now rewrite (proj1 (page_down_aligned _ P1)), (proj2 (page_down_aligned _ P2)). }
      apply filter_In. split; [exact Hin|]. rewrite Hst, AL. cbn. destruct T as [-> | ->]; reflexivity. }
    assert (OTH : expected_mapping st = None -> synced_at s' a).
    { intros EX. destruct K04 as (_ & _ & _ & _ & _ & K04). apply K04. intros t st' [= <-] X.
      change (state_at (g_blocks (sp_gcd s)) a = Some st') in X. rewrite SA in X. injection X as <-. now rewrite EX. }
    destruct (ms_type st) eqn:T; try (apply IOC; auto; fail); apply OTH; unfold expected_mapping; rewrite T; try reflexivity;
      (rewrite (FP a st SA AL); [reflexivity|rewrite T; discriminate|rewrite T; discriminate|rewrite T; discriminate]).
Qed.

(** ** The attribute loop ends inside the address space *)
Lemma set_paging_gcd : forall s b l a r s', set_paging_attributes s b l a = (r, s') -> sp_gcd s' = sp_gcd s.
Proof.
  assert (AG : forall A s (r r' : sout A) s', assert_then s r = (r', s') -> sp_gcd s' = sp_gcd s).
  { intros A s r r' s' H. unfold assert_then in H. destruct (s_dbg s); injection H as <- <-; reflexivity. }
  intros s b l a r s' H. unfold set_paging_attributes in H.
  destruct (sp_pt s) as [t|]; [|injection H as <- <-; reflexivity].
  cbv zeta in H.
  assert (TF : forall f s1, take_fault s = (f, s1) -> sp_gcd s1 = sp_gcd s).
  { intros f s1 HT. apply take_fault_fields in HT. tauto. }
  destruct (pt_query t b l) as [cur|q|].
  - match type of H with (if ?c then _ else _) = _ => destruct c; [injection H as <- <-; reflexivity|] end.
    match type of H with (if ?c then _ else _) = _ => destruct c end;
      destruct (take_fault s) as (f, s1); specialize (TF f s1 eq_refl); rewrite <- TF.
    + destruct (pt_unmap t b l f) as [?|?|]; [injection H as <- <-; reflexivity| |]; eapply AG; eauto.
    + destruct (pt_map t b l (N.land a PAGING_MASK) f) as [?|q|].
      * match type of H with (if ?c then _ else _) = _ => destruct c; injection H as <- <-; reflexivity end.
      * destruct q; eapply AG; eauto.
      * eapply AG; eauto.
  - destruct q; try (eapply AG; eauto; fail).
    match type of H with (if ?c then _ else _) = _ => destruct c; [eapply AG; eauto|] end.
    destruct (take_fault s) as (f, s1); specialize (TF f s1 eq_refl). rewrite <- TF.
    destruct (pt_map t b l (N.land a PAGING_MASK) f) as [?|q|].
    + match type of H with (if ?c then _ else _) = _ => destruct c; injection H as <- <-; reflexivity end.
    + destruct q; eapply AG; eauto.
    + eapply AG; eauto.
  - eapply AG; eauto.
Qed.

Lemma swallow_gcd : forall s b l a s1, map_ok (sp_gcd s) -> 0 < g_max (sp_gcd s) < two64 -> word b -> word l ->
  swallow_set s b l a = (SOk tt, s1) ->
  map_ok (sp_gcd s1) /\ same_frame (sp_gcd s) (sp_gcd s1) /\ sp_pt s1 = sp_pt s /\
  (sp_gcd s1 = sp_gcd s \/
   (0 < l /\ b + l <= g_max (sp_gcd s) /\
    exists st st', range_changed (g_blocks (sp_gcd s)) (g_blocks (sp_gcd s1)) b l st st')).
Proof.
  intros s b l a s1 HM Hmax Wb Wl H. unfold swallow_set in H.
  destruct (set_memory_space_attributes (sp_gcd s) b l a) as [[u|e|] g'] eqn:E; [| |discriminate].
  - injection H as <-. destruct u. destruct (set_gcd_ok _ _ _ _ _ HM Hmax Wb Wl E) as (F & M & _ & _ & st & st' & L & R & _ & RC).
    cbn [with_gcd sp_gcd sp_pt]. split; [exact M|]. split; [exact F|]. split; [reflexivity|]. right. eauto 10.
  - pose proof (set_attributes_step (sp_gcd s) b l a (Err e) g' HM Hmax Wb Wl) as P. rewrite E in P.
    specialize (P eq_refl). cbn [step_post is_free] in P. destruct P as [->|(X & _)]; [|discriminate].
    unfold assert_then in H. destruct (s_dbg _); [discriminate|]. injection H as <-. cbn [alarmed with_gcd sp_gcd sp_pt].
    split; [exact HM|]. split; [apply same_frame_refl|]. split; [reflexivity|]. left. reflexivity.
Qed.

(** Two maximally merged maps that agree from [x] on have equally many blocks from the one containing [x] on. *)
Lemma merged_same_length : forall {St} (l1 l2 : list (block St)) lo1 lo2 hi x,
  tiles lo1 hi l1 -> tiles lo2 hi l2 -> merged l1 -> merged l2 ->
  lo1 <= x -> lo2 <= x -> x < hi ->
  (forall b r, l1 = b :: r -> x < b_end b) -> (forall b r, l2 = b :: r -> x < b_end b) ->
  (forall a, x <= a -> state_at l1 a = state_at l2 a) -> length l1 = length l2.
Proof.
  induction l1 as [|b1 r1 IH]; intros l2 lo1 lo2 hi x T1 T2 M1 M2 L1 L2 Hx F1 F2 AG.
  { cbn in T1. lia. }
  destruct l2 as [|b2 r2]; [cbn in T2; lia|].
  specialize (F1 b1 r1 eq_refl). specialize (F2 b2 r2 eq_refl).
  assert (HD : forall (b : block St) r lo a, tiles lo hi (b :: r) -> lo <= a -> a < b_end b -> state_at (b :: r) a = Some (b_st b)).
  { intros b r lo a (H1 & _ & _) H2 H3. cbn [state_at]. rewrite H1.
    destruct (N.leb_spec lo a); [|lia]. destruct (N.ltb_spec a (b_end b)); [|lia]. reflexivity. }
  assert (NX : forall (b c : block St) r lo, tiles lo hi (b :: c :: r) -> state_at (b :: c :: r) (b_end b) = Some (b_st c)).
  { intros b c r lo (H1 & H2 & H3 & H4 & _). cbn [state_at].
    destruct (N.ltb_spec (b_end b) (b_end b)); [lia|]. rewrite andb_false_r. rewrite H3, N.leb_refl.
    destruct (N.ltb_spec (b_end b) (b_end c)) as [|X]; [reflexivity|]. unfold b_end in X at 1. rewrite H3 in X. unfold b_end in X. lia. }
  assert (SS : b_st b1 = b_st b2).
  { specialize (AG x ltac:(lia)). rewrite (HD b1 r1 lo1 x), (HD b2 r2 lo2 x) in AG by auto. now injection AG. }
  assert (EE : b_end b1 = b_end b2).
  { destruct (N.lt_trichotomy (b_end b1) (b_end b2)) as [Lt|[Eq|Lt]]; [exfalso|exact Eq|exfalso].
    - specialize (AG (b_end b1) ltac:(lia)). rewrite (HD b2 r2 lo2 (b_end b1)) in AG by (auto; lia).
      destruct r1 as [|c1 r1].
      + cbn in T1. destruct T2 as (_ & _ & T2). apply tiles_le in T2. lia.
      + rewrite (NX b1 c1 r1 lo1 T1) in AG. injection AG as AG. destruct M1 as (M1 & _). congruence.
    - specialize (AG (b_end b2) ltac:(lia)). rewrite (HD b1 r1 lo1 (b_end b2)) in AG by (auto; lia).
      destruct r2 as [|c2 r2].
      + cbn in T2. destruct T1 as (_ & _ & T1). apply tiles_le in T1. lia.
      + rewrite (NX b2 c2 r2 lo2 T2) in AG. injection AG as AG. destruct M2 as (M2 & _). congruence. }
  cbn [length]. f_equal.
  destruct T1 as (B1 & P1 & T1). destruct T2 as (B2 & P2 & T2). rewrite EE in T1.
  destruct (N.eq_dec (b_end b2) hi) as [EH|NH].
  - assert (N1 : forall l : list (block St), tiles (b_end b2) hi l -> l = []).
    { intros [|c l] T; [reflexivity|]. cbn in T. destruct T as (Q1 & Q2 & Q3). apply tiles_le in Q3. unfold b_end in *. lia. }
    rewrite (N1 r1 T1), (N1 r2 T2). reflexivity.
  - pose proof (tiles_le _ _ _ T1) as LE.
    assert (POS : forall (b : block St) r, tiles (b_end b2) hi (b :: r) -> b_end b2 < b_end b).
    { intros b r (Q1 & Q2 & _). unfold b_end in *. lia. }
    apply (IH r2 (b_end b2) (b_end b2) hi (b_end b2)); auto; try lia.
    + eapply merged_tail; eauto.
    + eapply merged_tail; eauto.
    + intros b r ->. eapply POS; eauto.
    + intros b r ->. eapply POS; eauto.
    + intros a Ha. specialize (AG a ltac:(lia)). cbn [state_at] in AG. rewrite EE in AG.
      destruct (N.ltb_spec a (b_end b2)); [lia|]. rewrite !andb_false_r in AG. exact AG.
Qed.

Definition ahead (l : list mblock) (x : N) : list mblock := filter (fun b => x <? b_end b) l.

Lemma ahead_split : forall (l : list mblock) lo hi x, tiles lo hi l -> lo <= x < hi ->
  exists pre, l = pre ++ ahead l x /\ exists lo', tiles lo' hi (ahead l x) /\ lo' <= x /\
    (forall b r, ahead l x = b :: r -> x < b_end b) /\ (forall a, x <= a -> state_at (ahead l x) a = state_at l a).
Proof.
  induction l as [|b l IH]; intros lo hi x T H; cbn [tiles] in T; [lia|].
  destruct T as (T1 & T2 & T3). unfold ahead. cbn [filter].
  destruct (N.ltb_spec x (b_end b)) as [Lt|Ge].
  - assert (ALL : filter (fun b0 => x <? b_end b0) l = l).
    { assert (G : forall (l : list mblock) lo, tiles lo hi l -> x < lo -> filter (fun b0 => x <? b_end b0) l = l).
      { clear. induction l as [|c l IH]; intros lo T Hl; [reflexivity|]. destruct T as (T1 & T2 & T3). cbn [filter].
        destruct (N.ltb_spec x (b_end c)) as [|X]; [|unfold b_end in *; lia]. f_equal. eapply IH; [exact T3|unfold b_end in *; lia]. }
      eapply G; eauto. }
    rewrite ALL. exists []. split; [reflexivity|]. exists lo. split; [cbn; auto|]. split; [lia|].
    split; [|reflexivity]. intros b0 r [= <- <-]. exact Lt.
  - destruct (IH (b_end b) hi x T3 ltac:(lia)) as (pre & E & lo' & A1 & A2 & A3 & A4).
    fold (ahead l x). exists (b :: pre). split; [cbn; f_equal; exact E|]. exists lo'. split; [exact A1|]. split; [exact A2|].
    split; [exact A3|]. intros a Ha. rewrite A4 by exact Ha. cbn [state_at].
    destruct (N.ltb_spec a (b_end b)); [lia|]. now rewrite andb_false_r.
Qed.

Lemma ahead_same : forall g g' x, map_ok g -> map_ok g' -> g_max g' = g_max g -> x < g_max g ->
  (forall a, x <= a -> state_at (g_blocks g') a = state_at (g_blocks g) a) ->
  length (ahead (g_blocks g') x) = length (ahead (g_blocks g) x).
Proof.
  intros g g' x (T & M & _) (T' & M' & _) F Hx AG. rewrite F in T'.
  destruct (ahead_split _ _ _ x T ltac:(lia)) as (p & E & lo & A1 & A2 & A3 & A4).
  destruct (ahead_split _ _ _ x T' ltac:(lia)) as (p' & E' & lo' & A1' & A2' & A3' & A4').
  rewrite E in M. rewrite E' in M'. apply merged_app in M. apply merged_app in M'.
  eapply merged_same_length; eauto; try tauto.
  intros a Ha. rewrite A4, A4' by exact Ha. apply AG, Ha.
Qed.

Lemma ahead_next : forall (l : list mblock) x y b, In b l -> x < b_end b -> b_end b = y -> x <= y ->
  (length (ahead l y) < length (ahead l x))%nat.
Proof.
  intros l x y b Hin H1 H2 H3. unfold ahead.
  assert (SUB : forall l : list mblock, (length (filter (fun b => N.ltb y (b_end b)) l) <= length (filter (fun b => N.ltb x (b_end b)) l))%nat).
  { induction l0 as [|c l0 IH]; [auto|]. cbn [filter]. destruct (N.ltb_spec y (b_end c)), (N.ltb_spec x (b_end c)); cbn; lia. }
  induction l as [|c l IH]; [destruct Hin|]. cbn [filter].
  destruct Hin as [->|Hin].
  - destruct (N.ltb_spec y (b_end b)); [lia|]. destruct (N.ltb_spec x (b_end b)); [|lia]. cbn. specialize (SUB l). lia.
  - specialize (IH Hin). destruct (N.ltb_spec y (b_end c)), (N.ltb_spec x (b_end c)); cbn; lia.
Qed.

Lemma loop_ends : forall fuel s cur e attrs nr, map_ok (sp_gcd s) -> 0 < g_max (sp_gcd s) < two64 ->
  e <= g_max (sp_gcd s) -> (cur < e -> (length (ahead (g_blocks (sp_gcd s)) cur) < fuel)%nat) -> (0 < fuel)%nat ->
  fst (set_attrs_loop fuel s cur e attrs nr) <> SHang.
Proof.
  induction fuel as [|fuel IH]; intros s cur e attrs nr HM Hmax He Hf Hf0; [lia|]. cbn [set_attrs_loop].
  destruct (N.leb_spec e cur) as [Le|Lt]; [destruct nr; discriminate|].
  specialize (Hf Lt).
  destruct (descriptor_at (sp_gcd s) cur HM ltac:(lia) ltac:(lia)) as (d & GD & Hin & Hd & _).
  rewrite GD.
  assert (BE : b_base d + b_len d <= g_max (sp_gcd s)).
  { destruct HM as (HT & _). eapply block_bound; eauto. }
  rewrite uadd_small by lia. change (b_base d + b_len d) with (b_end d) in *.
  unfold usub. destruct (N.leb_spec cur (N.min (b_end d) e)) as [Ln|Ln]; [|lia].
  set (n := N.min (b_end d) e - cur).
  destruct (swallow_set s cur n attrs) as [rs s1] eqn:SW.
  destruct (swallow_other _ _ _ _ _ _ SW) as [->| ->]; [|discriminate].
  destruct (swallow_gcd s cur n attrs s1 HM Hmax ltac:(unfold word; lia) ltac:(unfold word; lia) SW) as (M1 & F1 & P1 & CH).
  pose proof (same_frame_max _ _ F1) as (X1 & X2 & _).
  assert (NEXT : forall s2 nr', sp_gcd s2 = sp_gcd s1 ->
            fst (set_attrs_loop fuel s2 (N.min (b_end d) e) e attrs nr') <> SHang).
  { intros s2 nr' G2. apply IH; try rewrite G2; auto; try (rewrite X1; auto; fail).
    - intros Hlt. assert (EQ : N.min (b_end d) e = b_end d) by lia. rewrite EQ in *.
      pose proof (ahead_next _ cur (b_end d) d Hin ltac:(lia) eq_refl ltac:(lia)) as AN.
      assert (AS : length (ahead (g_blocks (sp_gcd s1)) (b_end d)) = length (ahead (g_blocks (sp_gcd s)) (b_end d))).
      { apply ahead_same; auto; [lia|]. intros a Ha.
        destruct CH as [->|(_ & _ & st & st' & (_ & RC2))]; [reflexivity|].
        apply RC2. unfold in_range. lia. }
      lia.
    - assert (0 < length (ahead (g_blocks (sp_gcd s)) cur))%nat; [|lia].
      pose proof (ahead_next _ cur (b_end d) d Hin ltac:(lia) eq_refl ltac:(lia)). lia. }
  destruct (N.land attrs PAGING_MASK =? 0); [apply NEXT; reflexivity|].
  destruct (set_paging_attributes s1 cur n attrs) as [rp s2] eqn:SP. pose proof (set_paging_gcd _ _ _ _ _ _ SP) as G2.
  destruct rp as [u|er| |]; [apply NEXT, G2| |discriminate|destruct (set_paging_not_hang _ _ _ _ _ SP)].
  destruct er; try apply NEXT, G2;
    (unfold assert_then; destruct (s_dbg s2); discriminate).
Qed.

Lemma ahead_le : forall l x, (length (ahead l x) <= length l)%nat.
Proof. intros l x. unfold ahead. induction l as [|b l IH]; cbn; [auto|]. destruct (x <? b_end b); cbn; lia. Qed.

(** ... and runs forever past its end. *)
Lemma loop_runs_on : forall fuel s cur e attrs nr, map_ok (sp_gcd s) -> 0 < g_max (sp_gcd s) < two64 ->
  s_dbg s = false -> word e -> g_max (sp_gcd s) < e -> cur < e -> (sp_pt s = None \/ N.land attrs PAGING_MASK = 0) ->
  fst (set_attrs_loop fuel s cur e attrs nr) = SHang.
Proof.
  induction fuel as [|fuel IH]; intros s cur e attrs nr HM Hmax Hd We He Hc HP; [reflexivity|]. cbn [set_attrs_loop].
  destruct (N.leb_spec e cur) as [Le|Lt]; [lia|].
  unfold word in We.
  assert (D : exists d, get_memory_descriptor_for_address (sp_gcd s) cur = Ok d /\ b_end d <= g_max (sp_gcd s) /\
              (cur < b_end d \/ (b_end d = g_max (sp_gcd s) /\ g_max (sp_gcd s) <= cur))).
  { destruct (N.lt_ge_cases cur (g_max (sp_gcd s))) as [Y|Y].
    - destruct (descriptor_at (sp_gcd s) cur HM ltac:(lia) Y) as (d & GD & Hin & Hd' & _). exists d. split; [exact GD|].
      destruct HM as (HT & _). split; [eapply block_bound; eauto|]. left. lia.
    - destruct HM as (HT & _). pose proof (closest_spec _ _ _ cur HT) as C.
      unfold get_memory_descriptor_for_address. destruct (N.eqb_spec (g_max (sp_gcd s)) 0); [lia|].
      destruct (closest (g_blocks (sp_gcd s)) cur) as [k|].
      + destruct C as (pre & b & post & E & <- & K & A). rewrite E in *.
        pose proof (proj1 (tiles_mid _ _ _ _ _) HT) as TM.
        rewrite lookup_mid by (destruct TM as (T1 & _); eapply tiles_below; eauto).
        exists b. split; [reflexivity|].
        assert (post = []).
        { destruct post as [|c post]; [reflexivity|exfalso].
          apply Forall_inv in A. 
          assert (Hin : In c (pre ++ b :: c :: post)) by (apply in_or_app; right; right; left; reflexivity).
          pose proof (block_bound _ _ _ _ HT Hin). lia. }
        subst post. destruct TM as (_ & _ & TM). cbn in TM. split; [lia|]. right. lia.
      + destruct C as [C|C]; [lia|]. rewrite C in HT. cbn in HT. lia. }
  destruct D as (d & GD & BE & DC). rewrite GD.
  unfold b_end in BE. rewrite uadd_small by lia. change (b_base d + b_len d) with (b_end d) in *.
  set (nx := N.min (b_end d) e).
  assert (NX : nx < e) by (subst nx; lia).
  assert (US : exists n, usub (E := efi_error) (s_dbg s) nx cur = Ok n /\ word n).
  { unfold usub, word. destruct (N.leb_spec cur nx); [exists (nx - cur); split; [reflexivity|lia]|].
    rewrite Hd. eexists. split; [reflexivity|]. apply N.mod_lt. discriminate. }
  destruct US as (n & US & Wn). rewrite US.
  destruct (swallow_set s cur n attrs) as [rs s1] eqn:SW.
  assert (rs = SOk tt).
  { destruct (swallow_other _ _ _ _ _ _ SW) as [->| ->]; [reflexivity|exfalso].
    unfold swallow_set, assert_then in SW.
    destruct (set_memory_space_attributes (sp_gcd s) cur n attrs) as [[u|er|] g'] eqn:E; try discriminate.
    - pose proof (set_attributes_step (sp_gcd s) cur n attrs (Err er) g' HM Hmax ltac:(unfold word; lia) Wn) as P. rewrite E in P.
      specialize (P eq_refl). cbn [step_post is_free] in P. destruct P as [->|(X & _)]; [|discriminate].
      unfold s_dbg in *. cbn [with_gcd sp_gcd] in SW. rewrite Hd in SW. discriminate.
    - pose proof (set_attributes_step (sp_gcd s) cur n attrs Panic g' HM Hmax ltac:(unfold word; lia) Wn) as P. rewrite E in P.
      specialize (P eq_refl). cbn [step_post] in P. unfold s_dbg in Hd. congruence. }
  subst rs.
  destruct (swallow_gcd s cur n attrs s1 HM Hmax ltac:(unfold word; lia) Wn SW) as (M1 & F1 & P1 & _).
  pose proof (same_frame_max _ _ F1) as (X1 & X2 & _).
  assert (NEXT : forall nr', fst (set_attrs_loop fuel s1 nx e attrs nr') = SHang).
  { intros nr'. apply IH; auto; try (rewrite X1; auto; fail).
    - unfold s_dbg in *. congruence.
    - rewrite P1. exact HP. }
  destruct (N.eqb_spec (N.land attrs PAGING_MASK) 0) as [Z|Z]; [apply NEXT|].
  destruct HP as [HP|HP]; [|congruence].
  unfold set_paging_attributes. rewrite P1, HP. apply NEXT.
Qed.

(** ** A debug build stops instead of raising the alarm *)
Lemma assert_debug : forall {A} s (r r' : sout A) s', assert_then s r = (r', s') -> s_dbg s = true -> r' = SPanic.
Proof. intros A s r r' s' H D. unfold assert_then in H. rewrite D in H. now injection H as <- <-. Qed.

Lemma set_paging_debug : forall s b l a r s', set_paging_attributes s b l a = (r, s') -> s_dbg s = true -> r <> SPanic ->
  sp_alarm s' = sp_alarm s.
Proof.
  intros s b l a r s' H D Hp. unfold set_paging_attributes in H.
  destruct (sp_pt s) as [t|]; [|injection H as <- <-; reflexivity].
  cbv zeta in H.
  assert (TF : forall f s1, take_fault s = (f, s1) -> sp_alarm s1 = sp_alarm s /\ s_dbg s1 = true).
  { intros f s1 HT. apply take_fault_fields in HT. destruct HT as (G & _ & _ & _ & ->). unfold s_dbg in *. rewrite G. auto. }
  destruct (pt_query t b l) as [cur|q|].
  - match type of H with (if ?c then _ else _) = _ => destruct c; [injection H as <- <-; reflexivity|] end.
    match type of H with (if ?c then _ else _) = _ => destruct c end;
      destruct (take_fault s) as (f, s1); destruct (TF f s1 eq_refl) as (T1 & T2).
    + destruct (pt_unmap t b l f) as [?|?|]; [injection H as <- <-; exact T1| |]; apply assert_debug in H; congruence.
    + destruct (pt_map t b l (N.land a PAGING_MASK) f) as [?|q|].
      * match type of H with (if ?c then _ else _) = _ => destruct c; injection H as <- <-; exact T1 end.
      * destruct q; apply assert_debug in H; congruence.
      * apply assert_debug in H; congruence.
  - destruct q; try (apply assert_debug in H; congruence).
    match type of H with (if ?c then _ else _) = _ => destruct c; [apply assert_debug in H; congruence|] end.
    destruct (take_fault s) as (f, s1); destruct (TF f s1 eq_refl) as (T1 & T2).
    destruct (pt_map t b l (N.land a PAGING_MASK) f) as [?|q|].
    + match type of H with (if ?c then _ else _) = _ => destruct c; injection H as <- <-; exact T1 end.
    + destruct q; apply assert_debug in H; congruence.
    + apply assert_debug in H; congruence.
  - apply assert_debug in H; congruence.
Qed.

Lemma loop_debug : forall fuel s cur e attrs nr r s', map_ok (sp_gcd s) -> 0 < g_max (sp_gcd s) < two64 ->
  s_dbg s = true -> word e -> set_attrs_loop fuel s cur e attrs nr = (r, s') -> r <> SPanic ->
  sp_alarm s' = sp_alarm s /\ s_dbg s' = true.
Proof.
  induction fuel as [|fuel IH]; intros s cur e attrs nr r s' HM Hmax D We H Hp; cbn [set_attrs_loop] in H.
  { injection H as <- <-. auto. }
  destruct (N.leb_spec e cur) as [Le|Lt]; [injection H as <- <-; auto|].
  unfold word in We.
  destruct (get_memory_descriptor_for_address (sp_gcd s) cur) as [d|er|];
    [|injection H as <- <-; auto|injection H as <- <-; congruence].
  destruct (uadd (s_dbg s) (b_base d) (b_len d)) as [de|?|]; [|injection H as <- <-; congruence|injection H as <- <-; congruence].
  destruct (usub (s_dbg s) (N.min de e) cur) as [n|?|] eqn:US; [|injection H as <- <-; congruence|injection H as <- <-; congruence].
  assert (Wn : word n).
  { unfold usub in US. rewrite D in US. destruct (cur <=? N.min de e); [|discriminate]. injection US as <-. unfold word. lia. }
  destruct (swallow_set s cur n attrs) as [rs s1] eqn:SW.
  destruct (swallow_other _ _ _ _ _ _ SW) as [->| ->]; [|injection H as <- <-; congruence].
  destruct (swallow_gcd s cur n attrs s1 HM Hmax ltac:(unfold word; lia) Wn SW) as (M1 & F1 & P1 & _).
  pose proof (same_frame_max _ _ F1) as (X1 & X2 & _).
  assert (A1 : sp_alarm s1 = sp_alarm s).
  { unfold swallow_set in SW. destruct (set_memory_space_attributes (sp_gcd s) cur n attrs) as [[u|er|] g'] eqn:E; [| |discriminate].
    - injection SW as <-. reflexivity.
    - exfalso. pose proof (set_attributes_step (sp_gcd s) cur n attrs (Err er) g' HM Hmax ltac:(unfold word; lia) Wn) as P.
      rewrite E in P. specialize (P eq_refl). cbn [step_post is_free] in P. destruct P as [->|(X & _)]; [|discriminate].
      apply assert_debug in SW; [discriminate|exact D]. }
  assert (D1 : s_dbg s1 = true) by (unfold s_dbg in *; congruence).
  destruct (N.land attrs PAGING_MASK =? 0).
  { rewrite <- A1. apply (IH s1 (N.min de e) e attrs nr r); auto. now rewrite X1. }
  destruct (set_paging_attributes s1 cur n attrs) as [rp s2] eqn:SP.
  pose proof (set_paging_gcd _ _ _ _ _ _ SP) as G2.
  assert (D2 : s_dbg s2 = true) by (unfold s_dbg in *; congruence).
  pose proof (set_paging_debug _ _ _ _ _ _ SP D1) as A2.
  assert (GO : forall nr', set_attrs_loop fuel s2 (N.min de e) e attrs nr' = (r, s') -> rp <> SPanic ->
             sp_alarm s' = sp_alarm s /\ s_dbg s' = true).
  { intros nr' H' N. rewrite <- A1, <- A2 by exact N. apply (IH s2 (N.min de e) e attrs nr' r); auto; rewrite G2; auto. now rewrite X1. }
  destruct rp as [u|er| |].
  - eapply GO; [exact H|discriminate].
  - destruct er; try (exfalso; unfold assert_then in H; rewrite D2 in H; injection H as <- <-; congruence).
    eapply GO; [exact H|discriminate].
  - injection H as <- <-. congruence.
  - injection H as <- <-. rewrite <- A1. split; [apply A2; discriminate|exact D2].
Qed.

Lemma set_attributes_debug : forall s b l a r s', map_ok (sp_gcd s) -> 0 < g_max (sp_gcd s) < two64 ->
  s_dbg s = true -> spin_set_attributes s b l a = (r, s') -> r <> SPanic -> sp_alarm s' = sp_alarm s /\ s_dbg s' = true.
Proof.
  intros s b l a r s' HM Hmax D H Hp. unfold spin_set_attributes in H.
  destruct (uadd (s_dbg s) b l) as [e|?|] eqn:U; [|injection H as <- <-; congruence|injection H as <- <-; congruence].
  eapply loop_debug; eauto. eapply uadd_word; eauto.
Qed.

Lemma step_debug : forall s o r s', sp_wf s -> sop_wf o -> s_dbg s = true -> spin_step s o = (r, s') -> r <> SPanic ->
  sp_alarm s' = sp_alarm s.
Proof.
  intros s o r s' WF Wo D H Hp. pose proof WF as (HM & Hmax & W).
  destruct o; cbn [spin_step sop_wf] in *.
  - unfold spin_add in H. destruct (add_memory_space (sp_gcd s) ty base len caps) as [q g'].
    destruct q; injection H as <- <-; reflexivity.
  - unfold spin_remove in H. destruct (remove_memory_space (sp_gcd s) base len) as [q g'].
    destruct q as [u|e|]; cbn [sunit] in H; [|injection H as <- <-; reflexivity|injection H as <- <-; reflexivity].
    injection H as <- <-. cbn [with_gcd sp_pt notify sp_alarm]. destruct (sp_pt s) as [t|]; [|reflexivity].
    destruct (take_fault (with_gcd s g')) as [f s1] eqn:TF. apply take_fault_fields in TF.
    destruct TF as (_ & _ & _ & _ & T5). cbn [with_gcd sp_alarm] in T5.
    destruct (pt_unmap t base len f); exact T5.
  - unfold spin_allocate in H.
    destruct (allocate_memory_space (sp_gcd s) at_ ty align_shift len image device) as [q g'] eqn:E.
    destruct q as [v|e|]; [|injection H as <- <-; reflexivity|injection H as <- <-; reflexivity].
    assert (K : keeps s (with_gcd s g')).
    { apply (gcd_call_keeps s (OpAllocate at_ ty align_shift len image device) (Ok v) g' WF Wo E ltac:(discriminate) I). }
    destruct K as ((M' & Mx & _) & K2 & K3 & _). cbn [with_gcd sp_gcd] in *.
    assert (GEN : forall at2 q2 s2, spin_set_attributes (with_gcd s g') v len at2 = (q2, s2) ->
              match q2 with
              | SOk _ | SErr NotReady => (SOk v, notify s2 NAllocate)
              | SErr _ => match assert_then s2 (SOk v) with (SOk v, s) => (SOk v, notify s NAllocate) | r => r end
              | SPanic => (SPanic, s2)
              | SHang => (SHang, s2)
              end = (r, s') -> sp_alarm s' = sp_alarm s).
    { intros at2 q2 s2 SA H2.
      destruct q2 as [u|e2| |]; [| |injection H2 as <- <-; congruence|].
      - destruct (set_attributes_debug (with_gcd s g') _ _ _ _ _ M' Mx ltac:(unfold s_dbg in *; cbn; congruence) SA ltac:(discriminate)) as (A2 & D2).
        injection H2 as <- <-. exact A2.
      - destruct (set_attributes_debug (with_gcd s g') _ _ _ _ _ M' Mx ltac:(unfold s_dbg in *; cbn; congruence) SA ltac:(discriminate)) as (A2 & D2).
        destruct e2; first [injection H2 as <- <-; exact A2
          |exfalso; unfold assert_then in H2; rewrite D2 in H2; injection H2 as <- <-; congruence].
      - destruct (set_attributes_debug (with_gcd s g') _ _ _ _ _ M' Mx ltac:(unfold s_dbg in *; cbn; congruence) SA ltac:(discriminate)) as (A2 & D2).
        injection H2 as <- <-. exact A2. }
    destruct (get_memory_descriptor_for_address g' v) as [bl|e|]; [| |injection H as <- <-; congruence];
      cbv zeta in H;
      match type of H with context[spin_set_attributes ?x ?y ?z ?w] =>
        destruct (spin_set_attributes x y z w) as [q2 s2] eqn:SA end;
      (eapply GEN; [exact SA|]); destruct q2 as [u|e2| |]; try exact H; destruct e2; exact H.
  - unfold spin_free in H. destruct (free_memory_space (sp_gcd s) base len) as [q g'] eqn:E.
    assert (F : q <> Panic -> g_dbg g' = g_dbg (sp_gcd s)).
    { intros N. destruct (step_frame (sp_gcd s) (OpFree base len) (match q with Ok _ => Ok 0 | Err e => Err e | Panic => Panic end) g')
        as (_ & _ & X & _); auto.
      - split; [exact Hmax|auto].
      - cbn [gcd_step]. rewrite E. destruct q; reflexivity.
      - destruct q; congruence. }
    destruct q as [u|e|]; [| |injection H as <- <-; congruence].
    + cbn [with_gcd sp_pt] in H. destruct (sp_pt s) as [t|]; [|injection H as <- <-; reflexivity].
      destruct (take_fault (with_gcd s g')) as [f s1] eqn:TF. apply take_fault_fields in TF.
      destruct TF as (T1 & _ & _ & _ & T5). cbn [with_gcd sp_gcd sp_alarm] in *.
      assert (D1 : s_dbg s1 = true) by (unfold s_dbg in *; rewrite T1, F by discriminate; exact D).
      destruct (pt_unmap t base len f); [injection H as <- <-; exact T5| |];
        (exfalso; unfold assert_then in H; rewrite D1 in H; injection H as <- <-; congruence).
    + destruct e; injection H as <- <-; reflexivity.
  - destruct (spin_set_attributes s base len attrs) as [q s1] eqn:E.
    assert (X : q <> SPanic /\ s1 = s') by (destruct q; cbn [sunit] in H; injection H as <- <-; split; congruence).
    destruct X as (X & ->). eapply set_attributes_debug; eauto.
  - unfold spin_set_capabilities in H. destruct (set_memory_space_capabilities (sp_gcd s) base len caps) as [q g'].
    destruct q; cbn [sunit] in H; injection H as <- <-; reflexivity.
  - injection H as <- <-. reflexivity.
  - injection H as <- <-. reflexivity.
Qed.

(** ** What a completed attribute change leaves behind *)
Lemma loop_attrs : forall fuel s cur e attrs nr r s', map_ok (sp_gcd s) -> 0 < g_max (sp_gcd s) < two64 -> word e ->
  set_attrs_loop fuel s cur e attrs nr = (r, s') -> (r = SOk tt \/ r = SErr NotReady) -> sp_alarm s' = false ->
  (forall x, cur <= x < e -> exists st, state_at (g_blocks (sp_gcd s)) x = Some st /\ ms_type st <> NonExistent /\
     state_at (g_blocks (sp_gcd s')) x =
       Some (mkMs (ms_alloc st) (ms_type st) (ms_caps st) attrs (ms_image st) (ms_device st))) /\
  (forall x, x < cur \/ e <= x -> state_at (g_blocks (sp_gcd s')) x = state_at (g_blocks (sp_gcd s)) x).
Proof.
  induction fuel as [|fuel IH]; intros s cur e attrs nr r s' HM Hmax We H Hr HA; cbn [set_attrs_loop] in H.
  { injection H as <- <-. destruct Hr; discriminate. }
  destruct (N.leb_spec e cur) as [Le|Lt].
  { assert (s' = notify s NSetAttributes) by congruence. subst s'. split; [intros x Hx; lia|]. reflexivity. }
  unfold word in We.
  destruct (descriptor_any (sp_gcd s) cur HM ltac:(lia)) as (d & GD). rewrite GD in H.
  assert (NP : r <> SPanic) by (destruct Hr; congruence).
  destruct (uadd (s_dbg s) (b_base d) (b_len d)) as [de|?|]; [|injection H as <- <-; congruence|injection H as <- <-; congruence].
  destruct (usub (s_dbg s) (N.min de e) cur) as [n|?|] eqn:US; [|injection H as <- <-; congruence|injection H as <- <-; congruence].
  destruct (swallow_set s cur n attrs) as [rs s1] eqn:SW.
  destruct (swallow_other _ _ _ _ _ _ SW) as [->| ->]; [|injection H as <- <-; congruence].
  assert (NX : word n /\ (cur + n < two64 -> N.min de e = cur + n)).
  { unfold usub in US. destruct (N.leb_spec cur (N.min de e)).
    - injection US as <-. unfold word in *. split; lia.
    - destruct (s_dbg s); [discriminate|]. injection US as <-.
      unfold word in *. rewrite (N.mod_small (N.min de e + two64 - cur) two64) by lia. split; lia. }
  destruct NX as (Wn & NX).
  assert (REST : exists s2 nr', set_attrs_loop fuel s2 (N.min de e) e attrs nr' = (r, s') /\ sp_gcd s2 = sp_gcd s1 /\
                 (sp_alarm s1 = true -> sp_alarm s2 = true)).
  { destruct (N.land attrs PAGING_MASK =? 0); [exists s1, nr; auto|].
    destruct (set_paging_attributes s1 cur n attrs) as [rp s2] eqn:SP.
    pose proof (set_paging_gcd _ _ _ _ _ _ SP) as G2. pose proof (set_paging_mono _ _ _ _ _ _ SP) as MO.
    destruct rp as [u|er| |]; [exists s2, nr; auto| |injection H as <- <-; congruence|destruct (set_paging_not_hang _ _ _ _ _ SP)].
    destruct er; try (exists s2, true; auto; fail);
      exfalso; unfold assert_then in H; destruct (s_dbg s2); injection H as <- <-; destruct Hr; discriminate. }
  destruct REST as (s2 & nr' & H2 & G2 & MO2).
  assert (A2 : sp_alarm s2 = false) by (eapply mono_false; [eapply loop_mono; exact H2|exact HA]).
  assert (A1 : sp_alarm s1 = false) by (eapply mono_false; [exact MO2|exact A2]).
  destruct (swallow_ok _ _ _ _ _ SW A1) as (g' & HG & ->). cbn [with_gcd sp_gcd] in G2.
  assert (Wc : word cur) by (unfold word; lia).
  destruct (set_gcd_ok _ _ _ _ _ HM Hmax Wc Wn HG) as (F & M & _ & _ & st & st' & L & R & E & (RC1 & RC2)).
  pose proof (same_frame_max _ _ F) as (X1 & _ & _).
  rewrite NX in * by lia.
  destruct (IH s2 (cur + n) e attrs nr' r s') as (I1 & I2); auto; [rewrite G2; exact M|rewrite G2, X1; exact Hmax|].
  cbn [call_effect] in E. destruct E as (E1 & _ & E3).
  split.
  - intros x Hx. destruct (N.lt_ge_cases x (cur + n)) as [Y|Y].
    + exists st. rewrite I2 by (left; exact Y). rewrite G2. destruct (RC1 x ltac:(unfold in_range; lia)) as (X0 & ->).
      split; [exact X0|]. subst st'. split; [exact E1|reflexivity].
    + destruct (I1 x ltac:(lia)) as (s0 & Q1 & Q2 & Q3). exists s0. rewrite G2 in Q1.
      rewrite RC2 in Q1 by (unfold in_range; lia). auto.
  - intros x Hx. assert (e < cur + n \/ cur + n <= e) as [Z|Z] by lia.
    + exfalso. lia.
    + rewrite I2 by lia. rewrite G2. apply RC2. unfold in_range. lia.
Qed.

Lemma set_gcd_succeeds : forall g base len attrs st, map_ok g -> 0 < g_max g < two64 -> 0 < len -> base + len <= g_max g ->
  page_aligned base -> page_aligned len -> uniform g base len st -> ms_type st <> NonExistent ->
  bits_subset attrs (ms_caps st) -> room g 2 ->
  exists g', set_memory_space_attributes g base len attrs = (Ok tt, g') /\ same_frame g g' /\ map_ok g' /\
    clen (g_blocks g') <= clen (g_blocks g) + 2 /\
    range_changed (g_blocks g) (g_blocks g') base len st
      (mkMs (ms_alloc st) (ms_type st) (ms_caps st) attrs (ms_image st) (ms_device st)).
Proof.
  intros g base len attrs st HM Hmax Hl Hle A1 A2 U T B R.
  unfold set_memory_space_attributes. rewrite check_range_good by auto. unfold set_gcd_memory_attributes.
  destruct (sst_succeeds g base len (TSetAttributes attrs) st
             (mkMs (ms_alloc st) (ms_type st) (ms_caps st) attrs (ms_image st) (ms_device st)) HM Hmax Hl Hle U)
    as (k & g1 & x & C & L & Ex & ES & F & M & RC & CL); auto.
  { cbn [state_transition]. apply attribute_transition_some. auto. }
  rewrite C, ES. eauto 10.
Qed.

(** A range of one state is one turn of the loop. *)
Lemma uniform_turn : forall g base len st, map_ok g -> 0 < g_max g < two64 -> 0 < len -> base + len <= g_max g ->
  uniform g base len st ->
  exists d, get_memory_descriptor_for_address g base = Ok d /\ b_base d + b_len d <= g_max g /\
    N.min (b_base d + b_len d) (base + len) = base + len /\ b_st d = st /\ b_base d <= base.
Proof.
  intros g base len st HM Hmax Hl Hle U.
  destruct (find_block g base HM ltac:(lia)) as (pre & x & post & E & C & L & B1 & B2).
  pose proof HM as (HTl & HG & _).
  assert (Hin : In x (g_blocks g)) by (rewrite E; apply in_or_app; right; left; reflexivity).
  pose proof (block_bound _ _ _ _ HTl Hin) as BB.
  unfold uniform in U. rewrite E in *.
  destruct (uniform_fits pre x post 0 (g_max g) base len st HTl HG) as (HF & Ex); auto; [lia|].
  exists x. unfold get_memory_descriptor_for_address. destruct (N.eqb_spec (g_max g) 0); [lia|]. rewrite E, C, L.
  destruct HF as (_ & F2 & F3). unfold b_end in *. split; [reflexivity|]. split; [exact BB|]. split; [lia|]. auto.
Qed.
