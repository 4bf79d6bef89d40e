(** The loops of [Gcd.Spin] and [Attr.Model], address by address. *)
From Verif Require Import Base.Prelude Gcd.Blocks Gcd.Model Gcd.Spec Gcd.BlockProofs Gcd.Proofs Gcd.Spin Gcd.SpinSpec Gcd.SpinProofs
  Attr.Model Attr.Spec.
Local Open Scope N_scope.

Definition frame (s s' : spin) : Prop :=
  map_ok (sp_gcd s') /\ g_max (sp_gcd s') = g_max (sp_gcd s) /\ g_dbg (sp_gcd s') = g_dbg (sp_gcd s).

Lemma frame_refl : forall s, map_ok (sp_gcd s) -> frame s s.
Proof. unfold frame. auto. Qed.

Lemma frame_trans : forall a b c, frame a b -> frame b c -> frame a c.
Proof. unfold frame. intros a b c (A1 & A2 & A3) (B1 & B2 & B3). split; [exact B1|]. split; congruence. Qed.

Lemma frame_same : forall s s', map_ok (sp_gcd s) -> sp_gcd s' = sp_gcd s -> frame s s'.
Proof. unfold frame. intros s s' H E. rewrite E. auto. Qed.

(** One call of the map below. *)
Lemma swallow_each : forall s b l a s1, map_ok (sp_gcd s) -> 0 < g_max (sp_gcd s) < two64 -> word b -> word l ->
  swallow_set s b l a = (SOk tt, s1) ->
  frame s s1 /\
  (sp_gcd s1 = sp_gcd s \/
   (0 < l /\ b + l <= g_max (sp_gcd s) /\ exists st,
     range_changed (g_blocks (sp_gcd s)) (g_blocks (sp_gcd s1)) b l st (with_attrs st a))).
Proof.
  intros s b l a s1 HM Hmax Wb Wl H. unfold swallow_set in H.
  destruct (set_memory_space_attributes (sp_gcd s) b l a) as [[u|e|] g'] eqn:E; [| |discriminate].
  - injection H as <-. destruct u.
    destruct (set_gcd_ok _ _ _ _ _ HM Hmax Wb Wl E) as (F & M & _ & _ & st & st' & L & R & EF & RC).
    pose proof (same_frame_max _ _ F) as (X1 & X2 & _).
    split; [unfold frame; cbn [with_gcd sp_gcd]; auto|]. right. split; [exact L|]. split; [exact R|]. exists st.
    cbn [call_effect] in EF. destruct EF as (_ & _ & ->). exact RC.
  - pose proof (set_attributes_step (sp_gcd s) b l a (Err e) g' HM Hmax Wb Wl) as P. rewrite E in P.
    specialize (P eq_refl). cbn [step_post is_free] in P. destruct P as [->|(X & _)]; [|discriminate].
    unfold assert_then in H. destruct (s_dbg _); [discriminate|]. injection H as <-.
    split; [apply frame_same; auto|]. left. reflexivity.
Qed.

Lemma rollback_each : forall s b l a, map_ok (sp_gcd s) -> 0 < g_max (sp_gcd s) < two64 -> word b -> word l ->
  s_dbg s = false ->
  frame s (rollback s b l a) /\
  (sp_gcd (rollback s b l a) = sp_gcd s \/
   (0 < l /\ b + l <= g_max (sp_gcd s) /\ exists st,
     range_changed (g_blocks (sp_gcd s)) (g_blocks (sp_gcd (rollback s b l a))) b l st (with_attrs st a))).
Proof.
  intros s b l a HM Hmax Wb Wl D. unfold rollback.
  destruct (set_memory_space_attributes (sp_gcd s) b l a) as [[u|e|] g'] eqn:E; cbn [snd].
  - destruct u.
    destruct (set_gcd_ok _ _ _ _ _ HM Hmax Wb Wl E) as (F & M & _ & _ & st & st' & L & R & EF & RC).
    pose proof (same_frame_max _ _ F) as (X1 & X2 & _).
    split; [unfold frame; cbn [with_gcd sp_gcd]; auto|]. right. split; [exact L|]. split; [exact R|]. exists st.
    cbn [call_effect] in EF. destruct EF as (_ & _ & ->). exact RC.
  - pose proof (set_attributes_step (sp_gcd s) b l a (Err e) g' HM Hmax Wb Wl) as P. rewrite E in P.
    specialize (P eq_refl). cbn [step_post is_free] in P. destruct P as [->|(X & _)]; [|discriminate].
    split; [apply frame_same; auto|]. left. reflexivity.
  - pose proof (set_attributes_step (sp_gcd s) b l a Panic g' HM Hmax Wb Wl) as P. rewrite E in P.
    specialize (P eq_refl). cbn [step_post] in P. unfold s_dbg in D. congruence.
Qed.

Lemma usub_cases : forall dbg nx cur e n, word e -> cur < e -> nx <= e -> usub (E := efi_error) dbg nx cur = Ok n ->
  word n /\ (cur + n < two64 -> nx = cur + n).
Proof.
  intros dbg nx cur e n We Hc Hn US. unfold usub in US. destruct (N.leb_spec cur nx).
  - injection US as <-. unfold word in *. split; lia.
  - destruct dbg; [discriminate|]. injection US as <-.
    unfold word in *. rewrite (N.mod_small (nx + two64 - cur) two64) by lia. split; lia.
Qed.

(** The descriptor of an address: the block containing it, or the last block for an address past the end. *)
Lemma descriptor_end : forall g a, map_ok g -> 0 < g_max g < two64 ->
  exists d, get_memory_descriptor_for_address g a = Ok d /\ b_base d + b_len d <= g_max g /\
    ((a < b_base d + b_len d /\ forall x, b_base d <= x < b_base d + b_len d -> state_at (g_blocks g) x = Some (b_st d)) /\ b_base d <= a \/
     b_base d + b_len d = g_max g /\ g_max g <= a).
Proof.
  intros g a HM Hmax. pose proof HM as (HT & _). destruct (N.lt_ge_cases a (g_max g)) as [Y|Y].
  - destruct (descriptor_at g a HM ltac:(lia) Y) as (d & GD & Hin & Hd & _). exists d. split; [exact GD|].
    split; [eapply block_bound; eauto|]. left. unfold b_end in Hd. split; [|lia]. split; [lia|]. intros x Hx.
    apply in_split in Hin. destruct Hin as (l1 & l2 & E). rewrite E in *. eapply state_at_mid; eauto.
  - pose proof (closest_spec _ _ _ a HT) as C.
    unfold get_memory_descriptor_for_address. destruct (N.eqb_spec (g_max g) 0); [lia|].
    destruct (closest (g_blocks g) a) as [k|].
    + destruct C as (pre & b & post & E & <- & K & A). rewrite E in *.
      pose proof (proj1 (tiles_mid _ _ _ _ _) HT) as TM.
      rewrite lookup_mid by (destruct TM as (T1 & _); eapply tiles_below; eauto).
      exists b. split; [reflexivity|].
      assert (post = []).
      { destruct post as [|c post]; [reflexivity|exfalso].
        apply Forall_inv in A.
        assert (Hin : In c (pre ++ b :: c :: post)) by (apply in_or_app; right; right; left; reflexivity).
        pose proof (block_bound _ _ _ _ HT Hin). lia. }
      subst post. destruct TM as (_ & _ & TM). cbn in TM. unfold b_end in TM. split; [lia|]. right. lia.
    + destruct C as [C|C]; [lia|]. rewrite C in HT. cbn in HT. lia.
Qed.

Lemma past_end : forall g x, map_ok g -> g_max g <= x -> state_at (g_blocks g) x = None.
Proof.
  intros g x (HT & _) Hx. destruct (state_at (g_blocks g) x) eqn:E; [|reflexivity].
  apply state_in_block in E. destruct E as (b & Hin & _ & R). pose proof (block_bound _ _ _ _ HT Hin). unfold in_range in R. lia.
Qed.

(** Whatever the outcome, each address keeps its attributes or has those asked for. *)
Lemma loop_each : forall fuel s cur e attrs nr r s', map_ok (sp_gcd s) -> 0 < g_max (sp_gcd s) < two64 -> word e ->
  set_attrs_loop fuel s cur e attrs nr = (r, s') -> r <> SPanic ->
  frame s s' /\
  (forall x, at_addr s' x = at_addr s x \/
     (cur <= x < e /\ exists st, at_addr s x = Some st /\ at_addr s' x = Some (with_attrs st attrs))).
Proof.
  induction fuel as [|fuel IH]; intros s cur e attrs nr r s' HM Hmax We H Hp; cbn [set_attrs_loop] in H.
  { injection H as <- <-. split; [apply frame_refl, HM|auto]. }
  destruct (N.leb_spec e cur) as [Le|Lt].
  { assert (s' = notify s NSetAttributes) by congruence. subst s'. split; [apply frame_same; auto|]. intros x. left. reflexivity. }
  destruct (descriptor_end (sp_gcd s) cur HM Hmax) as (d & GD & BE & DC). rewrite GD in H.
  rewrite uadd_small in H by lia. set (de := b_base d + b_len d) in *.
  destruct (usub (s_dbg s) (N.min de e) cur) as [n|?|] eqn:US; [|injection H as <- <-; congruence|injection H as <- <-; congruence].
  destruct (usub_cases _ _ _ e _ We Lt (N.le_min_r _ _) US) as (Wn & NX).
  assert (Wc : word cur) by (unfold word in *; lia).
  destruct (swallow_set s cur n attrs) as [rs s1] eqn:SW.
  destruct (swallow_other _ _ _ _ _ _ SW) as [->| ->]; [|injection H as <- <-; congruence].
  destruct (swallow_each _ _ _ _ _ HM Hmax Wc Wn SW) as (F1 & C1).
  assert (EACH1 : forall x, at_addr s1 x = at_addr s x \/
     (cur <= x < e /\ exists st, at_addr s x = Some st /\ at_addr s1 x = Some (with_attrs st attrs))).
  { intros x. unfold at_addr. destruct C1 as [->|(L & R & st & (RC1 & RC2))]; [left; reflexivity|].
    specialize (NX ltac:(lia)).
    destruct (N.le_gt_cases cur x) as [Y|Y]; [|left; apply RC2; unfold in_range; lia].
    destruct (N.lt_ge_cases x (cur + n)) as [Z|Z]; [|left; apply RC2; unfold in_range; lia].
    right. split; [lia|]. exists st; apply RC1; unfold in_range; lia. }
  assert (REST : forall s2 nr', sp_gcd s2 = sp_gcd s1 -> set_attrs_loop fuel s2 (N.min de e) e attrs nr' = (r, s') ->
    frame s s' /\
    (forall x, at_addr s' x = at_addr s x \/
       (cur <= x < e /\ exists st, at_addr s x = Some st /\ at_addr s' x = Some (with_attrs st attrs)))).
  { intros s2 nr' G2 H2. destruct F1 as (M1 & X1 & X2).
    destruct (IH s2 (N.min de e) e attrs nr' r s') as (F2 & E2); auto; [rewrite G2; exact M1|rewrite G2, X1; exact Hmax|].
    assert (FF : frame s s2) by (unfold frame; rewrite G2; auto).
    split; [eapply frame_trans; eauto|].
    intros x. assert (A2 : at_addr s2 x = at_addr s1 x) by (unfold at_addr; rewrite G2; reflexivity).
    specialize (E2 x). rewrite A2 in E2.
    destruct E2 as [E2|(E2a & st & E2b & E2c)].
    - rewrite E2. apply EACH1.
    - right. destruct (EACH1 x) as [Q|(Q1 & st0 & Q2 & Q3)].
      + rewrite Q in E2b. split; [|eauto].
        destruct DC as [DC|(DC1 & DC2)]; [lia|]. exfalso. unfold at_addr in E2b.
        rewrite past_end in E2b; [discriminate|exact HM|lia].
      + rewrite Q3 in E2b. injection E2b as <-. split; [exact Q1|]. exists st0. split; [exact Q2|]. exact E2c. }
  destruct (N.land attrs PAGING_MASK =? 0); [apply (REST s1 nr eq_refl H)|].
  destruct (set_paging_attributes s1 cur n attrs) as [rp s2] eqn:SP.
  pose proof (set_paging_gcd _ _ _ _ _ _ SP) as G2.
  assert (BACK : forall er, match assert_then s2 (SErr er) with
                            | (SPanic, s3) => (SPanic, s3)
                            | (r0, s3) => (r0, rollback s3 cur n (ms_attrs (b_st d)))
                            end = (r, s') ->
    frame s s' /\
    (forall x, at_addr s' x = at_addr s x \/
       (cur <= x < e /\ exists st, at_addr s x = Some st /\ at_addr s' x = Some (with_attrs st attrs)))).
  { intros er HB. unfold assert_then in HB. destruct (s_dbg s2) eqn:D2; [injection HB as <- <-; congruence|].
    injection HB as <- <-. destruct F1 as (M1 & X1 & X2).
    destruct (rollback_each (alarmed s2) cur n (ms_attrs (b_st d))) as (F3 & C3); auto;
      try (cbn [alarmed sp_gcd]; rewrite G2; rewrite ?X1; auto; fail).
    set (s3 := rollback (alarmed s2) cur n (ms_attrs (b_st d))) in *.
    assert (FF : frame s (alarmed s2)) by (unfold frame; cbn [alarmed sp_gcd]; rewrite G2; auto).
    split; [eapply frame_trans; eauto|].
    intros x. assert (A2 : at_addr (alarmed s2) x = at_addr s1 x) by (unfold at_addr; cbn [alarmed sp_gcd]; rewrite G2; reflexivity).
    destruct C3 as [C3|(L & R & st & (RC1 & RC2))].
    - unfold at_addr at 1. unfold at_addr at 3. rewrite C3. fold (at_addr (alarmed s2) x). rewrite A2. apply EACH1.
    - cbn [alarmed sp_gcd] in R. rewrite G2, X1 in R.
      destruct (N.le_gt_cases cur x) as [Y|Y]; [destruct (N.lt_ge_cases x (cur + n)) as [Z|Z]|].
      + left. destruct (RC1 x ltac:(unfold in_range; lia)) as (Q1 & Q2). fold (at_addr (alarmed s2) x) in Q1. rewrite A2 in Q1.
        fold (at_addr s3 x) in Q2. rewrite Q2.
        destruct DC as [((DC1 & DC2) & DC3)|(DC1 & DC2)]; [|lia].
        specialize (NX ltac:(lia)). specialize (DC2 x ltac:(lia)). fold (at_addr s x) in DC2. rewrite DC2.
        destruct C1 as [C1|(_ & _ & st1 & (RD1 & _))].
        * assert (at_addr s1 x = at_addr s x) by (unfold at_addr; rewrite C1; reflexivity).
          assert (st = b_st d) by congruence. subst st. f_equal. destruct (b_st d); reflexivity.
        * destruct (RD1 x ltac:(unfold in_range; lia)) as (P1 & P2). fold (at_addr s x) in P1. fold (at_addr s1 x) in P2.
          assert (st1 = b_st d) by congruence. assert (st = with_attrs st1 attrs) by congruence. subst st st1.
          f_equal. destruct (b_st d); reflexivity.
      + unfold at_addr at 1. unfold at_addr at 3. rewrite RC2 by (unfold in_range; lia). fold (at_addr (alarmed s2) x). rewrite A2. apply EACH1.
      + unfold at_addr at 1. unfold at_addr at 3. rewrite RC2 by (unfold in_range; lia). fold (at_addr (alarmed s2) x). rewrite A2. apply EACH1. }
  destruct rp as [u|er| |]; [apply (REST s2 nr G2 H)| |injection H as <- <-; congruence|destruct (set_paging_not_hang _ _ _ _ _ SP)].
  destruct er; try (eapply BACK; exact H). apply (REST s2 true G2 H).
Qed.

(** ** One attribute change *)
Lemma uadd_le : forall dbg a b e, uadd (E := efi_error) dbg a b = Ok e -> e <= a + b.
Proof.
  unfold uadd. intros dbg a b e H. destruct (a + b <? two64); [injection H as <-; lia|].
  destruct dbg; [discriminate|]. injection H as <-. apply N.mod_le. discriminate.
Qed.

Lemma set_each : forall s b l a r s', map_ok (sp_gcd s) -> 0 < g_max (sp_gcd s) < two64 ->
  spin_set_attributes s b l a = (r, s') -> r <> SPanic ->
  frame s s' /\ partly_rewritten s s' b l (fun _ => a).
Proof.
  intros s b l a r s' HM Hmax H Hp. unfold spin_set_attributes in H.
  destruct (uadd (s_dbg s) b l) as [e|?|] eqn:U; [|injection H as <- <-; congruence|injection H as <- <-; congruence].
  destruct (loop_each _ _ _ _ _ _ _ _ HM Hmax (uadd_word _ _ _ _ U) H Hp) as (F & E). split; [exact F|].
  intros x. destruct (E x) as [Q|(Q1 & st & Q2 & Q3)]; [left; exact Q|]. right. split; [|eauto].
  apply uadd_le in U. unfold in_range. lia.
Qed.

Lemma dxe_cases : forall s b l a r s', dxe_set_attributes s b l a = (r, s') -> exists q,
  spin_set_attributes s b l a = (q, s') /\
  (r = SOk tt -> q = SOk tt \/ q = SErr NotReady) /\
  (0 < g_max (sp_gcd s') -> q = SOk tt \/ q = SErr NotReady -> r = SOk tt) /\ (r <> SPanic <-> q <> SPanic) /\ (r = SHang <-> q = SHang) /\
  (forall e, r = SErr e -> q = SErr e).
Proof.
  intros s b l a r s' H. unfold dxe_set_attributes in H.
  destruct (spin_set_attributes s b l a) as [q s1]. destruct q as [[]|e| |].
  - injection H as <- <-. exists (SOk tt). split; [reflexivity|]. split; [auto|]. split; [auto|]. split; [tauto|]. split; [tauto|auto].
  - destruct e; try (injection H as <- <-; eexists; split; [reflexivity|]; split; [discriminate|];
      split; [intros _ [X|X]; discriminate|]; split; [tauto|]; split; [tauto|auto]).
    destruct (N.eqb_spec (g_max (sp_gcd s1)) 0) as [Z|Z]; injection H as <- <-; (exists (SErr NotReady); split; [reflexivity|]).
    + split; [discriminate|]. split; [lia|]. split; [tauto|]. split; [tauto|auto].
    + split; [auto|]. split; [auto|]. split; [split; discriminate|]. split; [split; discriminate|discriminate].
  - injection H as <- <-. exists SPanic. split; [reflexivity|]. split; [discriminate|]. split; [intros _ [X|X]; discriminate|].
    split; [tauto|]. split; [tauto|auto].
  - injection H as <- <-. exists SHang. split; [reflexivity|]. split; [discriminate|]. split; [intros _ [X|X]; discriminate|].
    split; [tauto|]. split; [tauto|auto].
Qed.

Lemma dxe_each : forall s b l a r s', map_ok (sp_gcd s) -> 0 < g_max (sp_gcd s) < two64 ->
  dxe_set_attributes s b l a = (r, s') -> r <> SPanic ->
  frame s s' /\ partly_rewritten s s' b l (fun _ => a).
Proof.
  intros s b l a r s' HM Hmax H Hp. destruct (dxe_cases _ _ _ _ _ _ H) as (q & Q & _ & _ & Q3 & _).
  eapply set_each; eauto. tauto.
Qed.

Lemma dxe_exact : forall s b l a s', map_ok (sp_gcd s) -> 0 < g_max (sp_gcd s) < two64 -> b + l < two64 ->
  dxe_set_attributes s b l a = (SOk tt, s') -> sp_alarm s' = false -> rewritten s s' b l (fun _ => a).
Proof.
  intros s b l a s' HM Hmax Hb H HA. destruct (dxe_cases _ _ _ _ _ _ H) as (q & Q & Q1 & _).
  unfold spin_set_attributes in Q. rewrite uadd_small in Q by exact Hb.
  assert (W : word (b + l)) by exact Hb.
  destruct (loop_attrs _ _ _ _ _ _ _ _ HM Hmax W Q (Q1 eq_refl) HA) as (A & B).
  split; [exact A|]. intros x Hx. apply B. unfold in_range in Hx. lia.
Qed.

Lemma dxe_keeps : forall s b l a r s', sp_wf s -> N.land a PAGING_MASK <> 0 ->
  dxe_set_attributes s b l a = (r, s') -> r <> SPanic -> sp_alarm s' = false -> keeps s s'.
Proof.
  intros s b l a r s' WF Hm H Hp HA. destruct (dxe_cases _ _ _ _ _ _ H) as (q & Q & _ & _ & Q3 & _).
  eapply set_attributes_keeps; eauto. tauto.
Qed.

Lemma dxe_mono : forall s b l a r s', dxe_set_attributes s b l a = (r, s') -> sp_alarm s = true -> sp_alarm s' = true.
Proof.
  intros s b l a r s' H HA. destruct (dxe_cases _ _ _ _ _ _ H) as (q & Q & _). eapply set_attributes_mono; eauto.
Qed.

Lemma dxe_debug : forall s b l a r s', map_ok (sp_gcd s) -> 0 < g_max (sp_gcd s) < two64 -> s_dbg s = true ->
  dxe_set_attributes s b l a = (r, s') -> r <> SPanic -> sp_alarm s' = sp_alarm s /\ s_dbg s' = true.
Proof.
  intros s b l a r s' HM Hmax D H Hp. destruct (dxe_cases _ _ _ _ _ _ H) as (q & Q & _ & _ & Q3 & _).
  eapply set_attributes_debug; eauto. tauto.
Qed.

(** An error without alarm never happens. *)
Lemma loop_err : forall fuel s cur e attrs nr er s', map_ok (sp_gcd s) -> 0 < g_max (sp_gcd s) < two64 -> word e ->
  set_attrs_loop fuel s cur e attrs nr = (SErr er, s') -> er <> NotReady -> sp_alarm s' = true /\ s_dbg s = false.
Proof.
  induction fuel as [|fuel IH]; intros s cur e attrs nr er s' HM Hmax We H Hn; cbn [set_attrs_loop] in H; [discriminate|].
  destruct (N.leb_spec e cur) as [Le|Lt]; [destruct nr; [injection H as <- _; congruence|discriminate]|].
  destruct (descriptor_any (sp_gcd s) cur HM ltac:(lia)) as (d & GD). rewrite GD in H.
  destruct (uadd (s_dbg s) (b_base d) (b_len d)) as [de|?|]; [|discriminate|discriminate].
  destruct (usub (s_dbg s) (N.min de e) cur) as [n|?|] eqn:US; [|discriminate|discriminate].
  destruct (usub_cases _ _ _ e _ We Lt (N.le_min_r _ _) US) as (Wn & NX).
  destruct (swallow_set s cur n attrs) as [rs s1] eqn:SW.
  destruct (swallow_other _ _ _ _ _ _ SW) as [->| ->]; [|discriminate].
  assert (Wc : word cur) by (unfold word in *; lia).
  destruct (swallow_each _ _ _ _ _ HM Hmax Wc Wn SW) as ((M1 & X1 & X2) & _).
  assert (GO : forall s2 nr', sp_gcd s2 = sp_gcd s1 -> set_attrs_loop fuel s2 (N.min de e) e attrs nr' = (SErr er, s') ->
             sp_alarm s' = true /\ s_dbg s = false).
  { intros s2 nr' G2 H2. destruct (IH s2 (N.min de e) e attrs nr' er s') as (Y1 & Y2); auto;
      [rewrite G2; exact M1|rewrite G2, X1; exact Hmax|]. split; [exact Y1|]. unfold s_dbg in *. congruence. }
  destruct (N.land attrs PAGING_MASK =? 0); [apply (GO s1 nr eq_refl H)|].
  destruct (set_paging_attributes s1 cur n attrs) as [rp s2] eqn:SP.
  pose proof (set_paging_gcd _ _ _ _ _ _ SP) as G2.
  destruct rp as [u|er'| |]; [apply (GO s2 nr G2 H)| |discriminate|discriminate].
  destruct er'; try (apply (GO s2 true G2 H));
    (unfold assert_then in H; destruct (s_dbg s2) eqn:D2; [discriminate|]; injection H as <- <-; cbn;
     split; [reflexivity|unfold s_dbg in *; congruence]).
Qed.

Lemma dxe_err : forall s b l a er s', map_ok (sp_gcd s) -> 0 < g_max (sp_gcd s) < two64 ->
  dxe_set_attributes s b l a = (SErr er, s') -> sp_alarm s' = true /\ s_dbg s = false.
Proof.
  intros s b l a er s' HM Hmax H. destruct (dxe_cases _ _ _ _ _ _ H) as (q & Q & _ & Q2 & _ & _ & Q4).
  specialize (Q4 _ eq_refl). subst q. pose proof Q as Q0. unfold spin_set_attributes in Q.
  destruct (uadd (s_dbg s) b l) as [e|?|] eqn:U; [|discriminate|discriminate].
  eapply loop_err; eauto; [eapply uadd_word; eauto|]. intros ->.
  destruct (set_each _ _ _ _ _ _ HM Hmax Q0) as ((_ & X & _) & _); [discriminate|].
  specialize (Q2 ltac:(rewrite X; lia) ltac:(auto)). discriminate.
Qed.

(** ** The walk *)
Lemma walk_frame_each : forall fuel s cur e f r s', map_ok (sp_gcd s) -> 0 < g_max (sp_gcd s) < two64 -> word e ->
  walk_loop fuel s cur e f = (r, s') -> r <> Crashed ->
  frame s s' /\
  (forall x, at_addr s' x = at_addr s x \/
     (cur <= x < e /\ exists st, at_addr s x = Some st /\ at_addr s' x = Some (with_attrs st (f (ms_attrs st))))).
Proof.
  induction fuel as [|fuel IH]; intros s cur e f r s' HM Hmax We H Hp; cbn [walk_loop] in H.
  { injection H as <- <-. split; [apply frame_refl, HM|auto]. }
  destruct (N.leb_spec e cur) as [Le|Lt]; [injection H as <- <-; split; [apply frame_refl, HM|auto]|].
  destruct (descriptor_end (sp_gcd s) cur HM Hmax) as (d & GD & BE & DC). rewrite GD in H.
  rewrite uadd_small in H by lia. set (de := b_base d + b_len d) in *.
  destruct (usub (s_dbg s) (N.min de e) cur) as [n|?|] eqn:US; [|injection H as <- <-; congruence|injection H as <- <-; congruence].
  destruct (usub_cases _ _ _ e _ We Lt (N.le_min_r _ _) US) as (Wn & NX).
  destruct (dxe_set_attributes s cur n (f (ms_attrs (b_st d)))) as [q s1] eqn:DX.
  assert (NP : q <> SPanic) by (intros ->; injection H as <- <-; congruence).
  destruct (dxe_each _ _ _ _ _ _ HM Hmax DX NP) as (F1 & E1).
  assert (EACH1 : forall x, at_addr s1 x = at_addr s x \/
     (cur <= x < e /\ exists st, at_addr s x = Some st /\ at_addr s1 x = Some (with_attrs st (f (ms_attrs st))))).
  { intros x. destruct (E1 x) as [Q|(Q1 & st & Q2 & Q3)]; [left; exact Q|]. right. unfold in_range in Q1.
    destruct (N.lt_ge_cases x (g_max (sp_gcd s))) as [Y|Y]; [|unfold at_addr in Q2; rewrite past_end in Q2; [discriminate|exact HM|exact Y]].
    destruct DC as [((DC1 & DC2) & DC3)|(DC1 & DC2)]; [|lia].
    assert (cur + n = N.min de e).
    { unfold usub in US. destruct (N.leb_spec cur (N.min de e)); [injection US as <-; lia|]. lia. }
    split; [lia|]. specialize (DC2 x ltac:(lia)). fold (at_addr s x) in DC2.
    exists st. assert (st = b_st d) by congruence. subst st. auto. }
  destruct q as [u|er| |]; [|injection H as <- <-; auto|congruence|injection H as <- <-; auto].
  destruct F1 as (M1 & X1 & X2).
  destruct (IH s1 (N.min de e) e f r s') as (F2 & E2); auto; [rewrite X1; exact Hmax|].
  split; [eapply frame_trans; [|exact F2]; unfold frame; auto|].
  intros x. destruct (E2 x) as [Q|(Q1 & st & Q2 & Q3)].
  - rewrite Q. apply EACH1.
  - right. destruct (N.lt_ge_cases x (g_max (sp_gcd s))) as [Y|Y].
    + destruct DC as [((DC1 & DC2) & DC3)|(DC1 & DC2)]; [|lia].
      assert (CN : cur + n = N.min de e).
      { unfold usub in US. destruct (N.leb_spec cur (N.min de e)); [injection US as <-; lia|]. lia. }
      split; [lia|]. exists st. split; [|exact Q3].
      destruct (E1 x) as [P|(P1 & _)]; [congruence|]. unfold in_range in P1. lia.
    + unfold at_addr in Q2. rewrite past_end in Q2; [discriminate|exact M1|rewrite X1; exact Y].
Qed.

Lemma walk_mono : forall fuel s cur e f r s', walk_loop fuel s cur e f = (r, s') -> sp_alarm s = true -> sp_alarm s' = true.
Proof.
  induction fuel as [|fuel IH]; intros s cur e f r s' H HA; cbn [walk_loop] in H; [injection H as <- <-; exact HA|].
  destruct (e <=? cur); [injection H as <- <-; exact HA|].
  destruct (get_memory_descriptor_for_address (sp_gcd s) cur) as [d|er|]; [|injection H as <- <-; exact HA|injection H as <- <-; exact HA].
  destruct (uadd (s_dbg s) (b_base d) (b_len d)) as [de|?|]; [|injection H as <- <-; exact HA|injection H as <- <-; exact HA].
  destruct (usub (s_dbg s) (N.min de e) cur) as [n|?|]; [|injection H as <- <-; exact HA|injection H as <- <-; exact HA].
  destruct (dxe_set_attributes s cur n (f (ms_attrs (b_st d)))) as [q s1] eqn:DX.
  pose proof (dxe_mono _ _ _ _ _ _ DX HA) as A1.
  destruct q; [eapply IH; eauto|injection H as <- <-; exact A1|injection H as <- <-; exact A1|injection H as <- <-; exact A1].
Qed.

(** A walk that ends without alarm has done everything. *)
Lemma walk_exact : forall fuel s cur e f r s', map_ok (sp_gcd s) -> 0 < g_max (sp_gcd s) < two64 -> word e ->
  walk_loop fuel s cur e f = (Done r, s') -> sp_alarm s' = false ->
  r = WDone /\
  (forall x, cur <= x < e -> exists st, at_addr s x = Some st /\ ms_type st <> NonExistent /\
     at_addr s' x = Some (with_attrs st (f (ms_attrs st)))) /\
  (forall x, x < cur \/ e <= x -> at_addr s' x = at_addr s x).
Proof.
  induction fuel as [|fuel IH]; intros s cur e f r s' HM Hmax We H HA; cbn [walk_loop] in H; [discriminate|].
  destruct (N.leb_spec e cur) as [Le|Lt]; [injection H as <- <-; split; [reflexivity|]; split; [intros x Hx; lia|auto]|].
  destruct (descriptor_end (sp_gcd s) cur HM Hmax) as (d & GD & BE & DC). rewrite GD in H.
  rewrite uadd_small in H by lia. set (de := b_base d + b_len d) in *.
  destruct (usub (s_dbg s) (N.min de e) cur) as [n|?|] eqn:US; [|discriminate|discriminate].
  destruct (usub_cases _ _ _ e _ We Lt (N.le_min_r _ _) US) as (Wn & NX).
  destruct (dxe_set_attributes s cur n (f (ms_attrs (b_st d)))) as [q s1] eqn:DX.
  destruct q as [[]|er| |]; [| |discriminate|discriminate].
  2:{ injection H as <- <-. destruct (dxe_err _ _ _ _ _ _ HM Hmax DX). congruence. }
  assert (A1 : sp_alarm s1 = false) by (eapply mono_false; [eapply walk_mono; exact H|exact HA]).
  destruct (dxe_each _ _ _ _ _ _ HM Hmax DX ltac:(discriminate)) as ((M1 & X1 & X2) & E1).
  destruct (IH s1 (N.min de e) e f r s') as (R & I1 & I2); auto; [rewrite X1; exact Hmax|].
  split; [exact R|].
  destruct DC as [((DC1 & DC2) & DC3)|(DC1 & DC2)].
  - assert (CN : cur + n = N.min de e).
    { unfold usub in US. destruct (N.leb_spec cur (N.min de e)); [injection US as <-; lia|]. lia. }
    assert (CW : cur + n < two64) by (unfold word in We; lia).
    destruct (dxe_exact _ _ _ _ _ HM Hmax CW DX A1) as (Q1 & Q2).
    split.
    + intros x Hx. destruct (N.lt_ge_cases x (cur + n)) as [Y|Y].
      * rewrite I2 by lia. destruct (Q1 x ltac:(unfold in_range; lia)) as (st & P1 & P2 & P3).
        specialize (DC2 x ltac:(lia)). fold (at_addr s x) in DC2. assert (st = b_st d) by congruence. subst st. eauto.
      * destruct (I1 x ltac:(lia)) as (st & P1 & P2 & P3). exists st. rewrite <- P1. split; [|auto].
        symmetry. apply Q2. unfold in_range. lia.
    + intros x Hx. rewrite I2 by lia. apply Q2. unfold in_range. lia.
  - (* past the end of the map: the walk would go on forever *)
    exfalso. assert (NE : N.min de e = g_max (sp_gcd s)) by lia. rewrite NE in *.
    destruct (I1 (g_max (sp_gcd s)) ltac:(lia)) as (st & P1 & _). unfold at_addr in P1.
    rewrite past_end in P1; [discriminate|exact M1|lia].
Qed.

Lemma walk_keeps : forall fuel s cur e f r s', sp_wf s -> word e ->
  (forall x st, cur <= x < e -> at_addr s x = Some st -> N.land (f (ms_attrs st)) PAGING_MASK <> 0) ->
  walk_loop fuel s cur e f = (r, s') -> r <> Crashed -> sp_alarm s' = false -> keeps s s'.
Proof.
  induction fuel as [|fuel IH]; intros s cur e f r s' WF We Hm H Hp HA; cbn [walk_loop] in H.
  { injection H as <- <-. apply keeps_refl, WF. }
  pose proof WF as (HM & Hmax & _).
  destruct (N.leb_spec e cur) as [Le|Lt]; [injection H as <- <-; apply keeps_refl, WF|].
  destruct (descriptor_end (sp_gcd s) cur HM Hmax) as (d & GD & BE & DC). rewrite GD in H.
  rewrite uadd_small in H by lia. set (de := b_base d + b_len d) in *.
  destruct (usub (s_dbg s) (N.min de e) cur) as [n|?|] eqn:US; [|injection H as <- <-; congruence|injection H as <- <-; congruence].
  destruct (dxe_set_attributes s cur n (f (ms_attrs (b_st d)))) as [q s1] eqn:DX.
  assert (NP : q <> SPanic) by (intros ->; injection H as <- <-; congruence).
  assert (A1 : sp_alarm s1 = false).
  { destruct q; [|injection H as <- <-; exact HA|congruence|injection H as <- <-; exact HA].
    eapply mono_false; [eapply walk_mono; exact H|exact HA]. }
  destruct (dxe_each _ _ _ _ _ _ HM Hmax DX NP) as ((M1 & X1 & X2) & E1).
  assert (K1 : keeps s s1).
  { destruct DC as [((DC1 & DC2) & DC3)|(DC1 & DC2)].
    - eapply dxe_keeps; eauto. apply (Hm cur); [lia|]. apply DC2. lia.
    - (* nothing is done past the end *)
      unfold dxe_set_attributes, spin_set_attributes in DX.
      destruct (uadd (s_dbg s) cur n) as [e2|?|] eqn:U2; [|injection DX as <- <-; congruence|injection DX as <- <-; congruence].
      assert (e2 <= cur).
      { unfold usub in US. destruct (N.leb_spec cur (N.min de e)) as [Z|Z].
        - injection US as <-. apply uadd_le in U2. lia.
        - destruct (s_dbg s); [discriminate|]. injection US as <-. unfold word in We.
          rewrite (N.mod_small (N.min de e + two64 - cur) two64) in U2 by lia. unfold uadd in U2.
          destruct (N.ltb_spec (cur + (N.min de e + two64 - cur)) two64) as [Y|Y]; [lia|]. injection U2 as <-.
          replace (cur + (N.min de e + two64 - cur)) with (N.min de e + 1 * two64) by lia.
          rewrite N.mod_add by discriminate. rewrite N.mod_small by lia. lia. }
      unfold attrs_fuel in DX. cbn [set_attrs_loop] in DX. destruct (N.leb_spec e2 cur); [|lia].
      injection DX as <- <-. apply keeps_notify, keeps_refl, WF. }
  destruct q as [u|er| |]; [|injection H as <- <-; exact K1|congruence|injection H as <- <-; exact K1].
  eapply keeps_trans; [exact K1|].
  apply (IH s1 (N.min de e) e f r s'); auto; [apply K1|].
  intros x st Hx Hst. destruct (N.lt_ge_cases x (g_max (sp_gcd s))) as [Y|Y].
  - destruct DC as [((DC1 & DC2) & DC3)|(DC1 & DC2)]; [|lia].
    assert (CN : cur + n = N.min de e).
    { unfold usub in US. destruct (N.leb_spec cur (N.min de e)); [injection US as <-; lia|]. lia. }
    apply (Hm x); [lia|]. destruct (E1 x) as [P|(P1 & _)]; [congruence|]. unfold in_range in P1. lia.
  - unfold at_addr in Hst. rewrite past_end in Hst; [discriminate|exact M1|rewrite X1; exact Y].
Qed.

Lemma walk_debug : forall fuel s cur e f r s', map_ok (sp_gcd s) -> 0 < g_max (sp_gcd s) < two64 -> s_dbg s = true ->
  walk_loop fuel s cur e f = (r, s') -> r <> Crashed -> sp_alarm s' = sp_alarm s.
Proof.
  induction fuel as [|fuel IH]; intros s cur e f r s' HM Hmax D H Hp; cbn [walk_loop] in H; [injection H as <- <-; reflexivity|].
  destruct (e <=? cur); [injection H as <- <-; reflexivity|].
  destruct (get_memory_descriptor_for_address (sp_gcd s) cur) as [d|er|]; [|injection H as <- <-; reflexivity|injection H as <- <-; reflexivity].
  destruct (uadd (s_dbg s) (b_base d) (b_len d)) as [de|?|]; [|injection H as <- <-; reflexivity|injection H as <- <-; reflexivity].
  destruct (usub (s_dbg s) (N.min de e) cur) as [n|?|]; [|injection H as <- <-; reflexivity|injection H as <- <-; reflexivity].
  destruct (dxe_set_attributes s cur n (f (ms_attrs (b_st d)))) as [q s1] eqn:DX.
  assert (NP : q <> SPanic) by (intros ->; injection H as <- <-; congruence).
  destruct (dxe_debug _ _ _ _ _ _ HM Hmax D DX NP) as (A1 & D1).
  destruct (dxe_each _ _ _ _ _ _ HM Hmax DX NP) as ((M1 & X1 & X2) & E1).
  destruct q; [|injection H as <- <-; exact A1|congruence|injection H as <- <-; exact A1].
  rewrite <- A1. eapply IH; eauto. rewrite X1. exact Hmax.
Qed.

Lemma dxe_ends : forall s b l a, map_ok (sp_gcd s) -> 0 < g_max (sp_gcd s) < two64 -> b + l <= g_max (sp_gcd s) ->
  fst (dxe_set_attributes s b l a) <> SHang.
Proof.
  intros s b l a HM Hmax Hb H. destruct (dxe_set_attributes s b l a) as [r s'] eqn:DX. cbn in H. subst r.
  destruct (dxe_cases _ _ _ _ _ _ DX) as (q & Q & _ & _ & _ & Q4 & _). apply proj1 in Q4. specialize (Q4 eq_refl). subst q.
  unfold spin_set_attributes in Q. rewrite uadd_small in Q by lia.
  apply (loop_ends (attrs_fuel s) s b (b + l) a false HM Hmax Hb); [| |rewrite Q; reflexivity].
  - intros _. unfold attrs_fuel. pose proof (ahead_le (g_blocks (sp_gcd s)) b). lia.
  - unfold attrs_fuel. lia.
Qed.

Lemma walk_ends : forall fuel s cur e f, map_ok (sp_gcd s) -> 0 < g_max (sp_gcd s) < two64 ->
  e <= g_max (sp_gcd s) -> (cur < e -> (length (ahead (g_blocks (sp_gcd s)) cur) < fuel)%nat) -> (0 < fuel)%nat ->
  fst (walk_loop fuel s cur e f) <> Stuck.
Proof.
  induction fuel as [|fuel IH]; intros s cur e f HM Hmax He Hf Hf0; [lia|]. cbn [walk_loop].
  destruct (N.leb_spec e cur) as [Le|Lt]; [discriminate|]. specialize (Hf Lt).
  destruct (descriptor_at (sp_gcd s) cur HM ltac:(lia) ltac:(lia)) as (d & GD & Hin & Hd & _). rewrite GD.
  assert (BE : b_base d + b_len d <= g_max (sp_gcd s)).
  { destruct HM as (HT & _). eapply block_bound; eauto. }
  rewrite uadd_small by lia. change (b_base d + b_len d) with (b_end d) in *.
  unfold usub. destruct (N.leb_spec cur (N.min (b_end d) e)) as [Ln|Ln]; [|lia].
  set (n := N.min (b_end d) e - cur).
  pose proof (dxe_ends s cur n (f (ms_attrs (b_st d))) HM Hmax ltac:(lia)) as NH.
  destruct (dxe_set_attributes s cur n (f (ms_attrs (b_st d)))) as [q s1] eqn:DX. cbn [fst] in NH.
  destruct q as [u|er| |]; [|discriminate|discriminate|congruence].
  destruct (dxe_each _ _ _ _ _ _ HM Hmax DX ltac:(discriminate)) as ((M1 & X1 & X2) & E1).
  apply IH; auto; try (rewrite X1; auto; fail).
  - intros Hlt. assert (EQ : N.min (b_end d) e = b_end d) by lia. rewrite EQ in *.
    pose proof (ahead_next _ cur (b_end d) d Hin ltac:(lia) eq_refl ltac:(lia)) as AN.
    assert (AS : length (ahead (g_blocks (sp_gcd s1)) (b_end d)) = length (ahead (g_blocks (sp_gcd s)) (b_end d))).
    { apply ahead_same; auto; [lia|]. intros a Ha.
      destruct (E1 a) as [P|(P & _)]; [exact P|]. unfold in_range in P. lia. }
    lia.
  - pose proof (ahead_next _ cur (b_end d) d Hin ltac:(lia) eq_refl ltac:(lia)). lia.
Qed.

(** At the end of the address space the walk makes no progress. *)
Lemma walk_stuck : forall fuel s e f, map_ok (sp_gcd s) -> 0 < g_max (sp_gcd s) < two64 -> g_max (sp_gcd s) < e -> word e ->
  fst (walk_loop fuel s (g_max (sp_gcd s)) e f) = Stuck.
Proof.
  induction fuel as [|fuel IH]; intros s e f HM Hmax He We; [reflexivity|]. cbn [walk_loop].
  destruct (N.leb_spec e (g_max (sp_gcd s))) as [Le|Lt]; [lia|].
  destruct (descriptor_end (sp_gcd s) (g_max (sp_gcd s)) HM Hmax) as (d & GD & BE & DC). rewrite GD.
  rewrite uadd_small by lia. destruct DC as [((DC1 & _) & _)|(DC1 & _)]; [lia|]. rewrite DC1.
  rewrite N.min_l by lia. unfold usub. rewrite N.leb_refl, N.sub_diag.
  unfold dxe_set_attributes, spin_set_attributes. rewrite uadd_small by lia. rewrite N.add_0_r.
  unfold attrs_fuel. cbn [set_attrs_loop]. rewrite N.leb_refl.
  apply (IH (notify s NSetAttributes) e f HM Hmax He We).
Qed.
