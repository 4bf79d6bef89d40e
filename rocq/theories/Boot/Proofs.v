From Verif Require Import Base.Prelude Gcd.Blocks Gcd.Model Gcd.Spec Gcd.BlockProofs Gcd.Proofs Gcd.AllocProofs Gcd.Main Gcd.Hist
  Gcd.Complete Gcd.Spin Gcd.SpinSpec Gcd.SpinProofs Io.Model Io.Spec Io.Proofs Io.Main Boot.Model Boot.Spec.
Local Open Scope N_scope.

(** ** Capabilities and types *)
Lemma land_pow2 : forall a j, (N.land a (2 ^ j) =? 0) = negb (N.testbit a j).
Proof.
  intros a j. destruct (N.testbit a j) eqn:E; cbn [negb].
  - apply N.eqb_neq. intros H. assert (X : N.testbit (N.land a (2 ^ j)) j = true).
    { rewrite N.land_spec, E, N.pow2_bits_true. reflexivity. }
    rewrite H, N.bits_0 in X. discriminate.
  - apply N.eqb_eq. apply N.bits_inj. intros i. rewrite N.land_spec, N.bits_0.
    destruct (N.eqb_spec i j) as [->|n]; [rewrite E; reflexivity|]. rewrite N.pow2_bits_false by congruence. apply andb_false_r.
Qed.
Lemma land_pow2_eq : forall a j, (N.land a (2 ^ j) =? 2 ^ j) = N.testbit a j.
Proof.
  intros a j. destruct (N.testbit a j) eqn:E.
  - apply N.eqb_eq. apply N.bits_inj. intros i. rewrite N.land_spec.
    destruct (N.eqb_spec j i) as [<-|n]; [rewrite E, N.pow2_bits_true; reflexivity|].
    rewrite N.pow2_bits_false by assumption. apply andb_false_r.
  - apply N.eqb_neq. intros H. pose proof (N.pow2_bits_true j) as X. rewrite <- H, N.land_spec, E in X. discriminate.
Qed.

(** Which entry of the table sets bit [i]. *)
Definition sets (ty : mem_type) (attr i : N) (e : N * N * bool) : bool :=
  match e with
  | (a, c, m) => (m || (negb (mt_eqb ty SystemMemory) && negb (mt_eqb ty MoreReliable)))
                 && negb (N.land attr a =? 0) && N.testbit c i
  end.
Lemma fold_bits : forall ty attr i l acc,
  N.testbit (fold_left (fun capabilities e =>
    match e with
    | (attribute, capability, memory) =>
        if (memory || (negb (mt_eqb ty SystemMemory) && negb (mt_eqb ty MoreReliable)))
           && negb (N.land attr attribute =? 0)
        then N.lor capabilities capability else capabilities
    end) l acc) i = N.testbit acc i || existsb (sets ty attr i) l.
Proof.
  intros ty attr i l. induction l as [|[[a c] m] l IH]; intros acc; cbn [fold_left existsb]; [now rewrite orb_false_r|].
  rewrite IH. unfold sets at 2. destruct ((m || _) && _); cbn [andb].
  - rewrite N.lor_spec. now rewrite orb_assoc.
  - reflexivity.
Qed.

Lemma get_capabilities_spec : forall ty attr, capabilities_of ty attr (get_capabilities ty attr).
Proof.
  intros ty attr i. unfold get_capabilities. rewrite fold_bits, N.bits_0. cbn [orb].
  unfold conversion_table. cbn [existsb].
  unfold sets.
  change 0x400 with (2 ^ 10). change 0x20000 with (2 ^ 17). change 0x800 with (2 ^ 11). change 0x1000 with (2 ^ 12).
  change 0x2000 with (2 ^ 13). change 0x100000 with (2 ^ 20). change 0x200000 with (2 ^ 21). change 0x400000 with (2 ^ 22).
  change 0x80000 with (2 ^ 19). change 0x1000000 with (2 ^ 24). change 0x2000000 with (2 ^ 25).
  change 0x0100000000000000 with (2 ^ 56). change 0x0200000000000000 with (2 ^ 57). change 0x0400000000000000 with (2 ^ 58).
  change 0x8000 with (2 ^ 15). change 0x10000 with (2 ^ 16). change 0x4000 with (2 ^ 14). change 0x10 with (2 ^ 4).
  change 8 with (2 ^ 3). change (N.testbit 4 i) with (N.testbit (2 ^ 2) i). change (N.testbit 2 i) with (N.testbit (2 ^ 1) i).
  change (N.testbit 1 i) with (N.testbit (2 ^ 0) i).
  change (N.land attr 1) with (N.land attr (2 ^ 0)). change (N.land attr 2) with (N.land attr (2 ^ 1)).
  change (N.land attr 4) with (N.land attr (2 ^ 2)).
  rewrite !land_pow2, !negb_involutive, !N.pow2_bits_eqb. cbn [orb andb].
  destruct i as [|p]; [cbn [N.eqb]; rewrite ?andb_false_r, ?andb_true_r, ?orb_false_r; reflexivity|].
  destruct (N.leb_spec 64 (N.pos p)) as [H|H].
  - assert (X : forall k, k < 64 -> (k =? N.pos p) = false) by (intros k Hk; apply N.eqb_neq; lia).
    rewrite !X by reflexivity. rewrite ?andb_false_r. cbn [orb].
    do 6 (destruct p as [p|p|]; try (exfalso; lia)); destruct p; reflexivity.
  - do 6 (try (destruct p as [p|p|])); try (exfalso; lia); cbn [N.eqb Pos.eqb];
      rewrite ?andb_false_r, ?andb_true_r, ?orb_false_r; cbn [orb]; try reflexivity;
      destruct ty; reflexivity.
Qed.

Lemma capabilities_unique : forall ty attr c c', capabilities_of ty attr c -> capabilities_of ty attr c' -> c = c'.
Proof. intros ty attr c c' H H'. apply N.bits_inj. intros i. rewrite H, H'. reflexivity. Qed.

Lemma mask_bits : forall i, N.testbit MEMORY_ATTRIBUTE_MASK i = existsb (N.eqb i) classifying.
Proof.
  intros [|p]; [reflexivity|]. do 5 (try (destruct p as [p|p|])); try reflexivity; destruct p; reflexivity.
Qed.
Lemma in_classifying : forall i, N.testbit MEMORY_ATTRIBUTE_MASK i = true <-> In i classifying.
Proof.
  intros i. rewrite mask_bits, existsb_exists. split.
  - intros (x & X & E). apply N.eqb_eq in E. now subst.
  - intros H. exists i. split; [exact H|apply N.eqb_refl].
Qed.
Lemma classified_mask : forall d v set, (forall i, N.testbit v i = existsb (N.eqb i) set) ->
  (forall i, In i set -> In i classifying) ->
  (N.land (d_attr d) MEMORY_ATTRIBUTE_MASK =? v) = true <-> classified_as d set.
Proof.
  intros d v set HV HS. rewrite N.eqb_eq. split.
  - intros H i Hi. apply in_classifying in Hi. unfold attr_bit.
    assert (X : N.testbit (d_attr d) i = N.testbit v i) by (rewrite <- H, N.land_spec, Hi, andb_true_r; reflexivity).
    rewrite X, HV, existsb_exists. split.
    + intros (x & I & E). apply N.eqb_eq in E. now subst.
    + intros I. exists i. split; [exact I|apply N.eqb_refl].
  - intros H. apply N.bits_inj. intros i. rewrite N.land_spec.
    destruct (N.testbit MEMORY_ATTRIBUTE_MASK i) eqn:EM.
    + rewrite andb_true_r, HV. apply in_classifying in EM. specialize (H i EM). unfold attr_bit in H.
      apply eq_iff_eq_true. rewrite H, existsb_exists. split.
      * intros I. exists i. split; [exact I|apply N.eqb_refl].
      * intros (x & I & E). apply N.eqb_eq in E. now subst.
    + rewrite andb_false_r, HV. symmetry. apply not_true_iff_false. rewrite existsb_exists. intros (x & I & E).
      apply N.eqb_eq in E. subst x. apply HS, in_classifying in I. congruence.
Qed.
Lemma classified_7 : forall d, (N.land (d_attr d) MEMORY_ATTRIBUTE_MASK =? TESTED_MEMORY_ATTRIBUTES) = true <-> classified_as d [0; 1; 2].
Proof.
  intros d. apply classified_mask.
  - intros [|p]; [reflexivity|]. do 2 (try (destruct p as [p|p|])); try reflexivity; destruct p; reflexivity.
  - cbn. tauto.
Qed.
Lemma classified_3 : forall d, (N.land (d_attr d) MEMORY_ATTRIBUTE_MASK =? INITIALIZED_MEMORY_ATTRIBUTES) = true <-> classified_as d [0; 1].
Proof.
  intros d. apply classified_mask.
  - intros [|p]; [reflexivity|]. do 2 (try (destruct p as [p|p|])); try reflexivity; destruct p; reflexivity.
  - cbn. tauto.
Qed.
Lemma classified_1 : forall d, (N.land (d_attr d) MEMORY_ATTRIBUTE_MASK =? PRESENT_MEMORY_ATTRIBUTES) = true <-> classified_as d [0].
Proof.
  intros d. apply classified_mask.
  - intros [|p]; [reflexivity|]. do 2 (try (destruct p as [p|p|])); try reflexivity; destruct p; reflexivity.
  - cbn. tauto.
Qed.

Lemma asks_for_system : forall d ty, d_type d = 0 -> system_memory_type (d_attr d) = ty -> ty <> NonExistent -> asks_for d ty.
Proof.
  intros d ty Hd HT N0. unfold system_memory_type in HT.
  change 0x800000 with (2 ^ 23) in HT. change 0x2000000 with (2 ^ 25) in HT. rewrite !land_pow2_eq in HT.
  change (N.testbit (d_attr d) 23) with (attr_bit d 23) in HT. change (N.testbit (d_attr d) 25) with (attr_bit d 25) in HT.
  destruct (attr_bit d 23) eqn:E23; [subst ty; now apply asks_persistent|].
  destruct (N.land (d_attr d) MEMORY_ATTRIBUTE_MASK =? INITIALIZED_MEMORY_ATTRIBUTES) eqn:E3; cbn [orb] in HT.
  { subst ty. apply asks_initialized; [exact Hd|now apply classified_3]. }
  destruct (N.land (d_attr d) MEMORY_ATTRIBUTE_MASK =? PRESENT_MEMORY_ATTRIBUTES) eqn:E1.
  { subst ty. apply asks_present; [exact Hd|now apply classified_1]. }
  destruct (N.land (d_attr d) MEMORY_ATTRIBUTE_MASK =? TESTED_MEMORY_ATTRIBUTES) eqn:E7; [|congruence].
  apply classified_7 in E7. destruct (attr_bit d 25) eqn:E25; subst ty; [now apply asks_reliable|now apply asks_system].
Qed.
Lemma asks_system_type : forall d ty, d_type d = 0 -> asks_for d ty -> system_memory_type (d_attr d) = ty.
Proof.
  intros d ty Hd H. unfold system_memory_type.
  change 0x800000 with (2 ^ 23). change 0x2000000 with (2 ^ 25). rewrite !land_pow2_eq.
  change (N.testbit (d_attr d) 23) with (attr_bit d 23). change (N.testbit (d_attr d) 25) with (attr_bit d 25).
  assert (P23 : forall set, classified_as d set -> ~ In 23 set -> attr_bit d 23 = false).
  { intros set Hs N. apply not_true_iff_false. intros X. apply N, Hs; [cbn; tauto|exact X]. }
  destruct H as [A B|A B C|A B C|A B|A B|A|A].
  - now rewrite B.
  - rewrite (P23 _ B) by (cbn; intuition discriminate). apply classified_7 in B.
    rewrite B, C. apply N.eqb_eq in B. rewrite B. reflexivity.
  - rewrite (P23 _ B) by (cbn; intuition discriminate). apply classified_7 in B.
    rewrite B, C. apply N.eqb_eq in B. rewrite B. reflexivity.
  - rewrite (P23 _ B) by (cbn; intuition discriminate). apply classified_3 in B. rewrite B. reflexivity.
  - rewrite (P23 _ B) by (cbn; intuition discriminate). apply classified_1 in B. rewrite B, orb_true_r. reflexivity.
  - exfalso. destruct A; congruence.
  - exfalso. destruct A; congruence.
Qed.

(** ** Which addresses a descriptor touches *)
Lemma split_covers : forall s e lo hi a, s <= e ->
  (exists r, In r (split_ranges (s, e) (lo, hi)) /\ fst r <= a < snd r) <->
  (s <= a < e /\ ~ (lo <= a < hi) /\ ~ (lo <= s < hi)).
Proof.
  intros s e lo hi a Hse. unfold split_ranges, remove_range_overlap. cbn [fst snd].
  destruct (N.ltb_spec s hi), (N.ltb_spec lo e); cbn [andb].
  2,3,4: split; [intros (r & [<-|[]] & R); cbn [fst snd] in R; lia | intros R; exists (s, e); cbn; split; [auto|lia]].
  destruct (N.ltb_spec s lo), (N.ltb_spec hi e).
  - split.
    + intros (r & [<-|[<-|[]]] & R); cbn [fst snd] in R; lia.
    + intros R. destruct (N.ltb_spec a lo); [exists (s, lo)|exists (hi, e)]; cbn; split; auto; lia.
  - split.
    + intros (r & [<-|[]] & R); cbn [fst snd] in R; lia.
    + intros R. exists (s, lo); cbn; split; auto; lia.
  - split; [intros (r & [] & _)|lia].
  - split; [intros (r & [] & _)|lia].
Qed.
Lemma split_bounds : forall s e lo hi r, In r (split_ranges (s, e) (lo, hi)) -> s <= e -> s <= fst r /\ snd r <= e.
Proof.
  intros s e lo hi r. unfold split_ranges, remove_range_overlap. cbn [fst snd].
  destruct (N.ltb_spec s hi), (N.ltb_spec lo e); cbn [andb]; try (intros [<-|[]]; cbn; lia).
  destruct (N.ltb_spec s lo), (N.ltb_spec hi e); cbn [In]; intros HI Hse; try contradiction;
    repeat (destruct HI as [<-|HI]; [cbn; lia|]); contradiction.
Qed.

Lemma split_order : forall s e lo hi r, In r (split_ranges (s, e) (lo, hi)) -> s <= e -> fst r <= e.
Proof.
  intros s e lo hi r. unfold split_ranges, remove_range_overlap. cbn [fst snd].
  destruct (N.ltb_spec s hi), (N.ltb_spec lo e); cbn [andb]; try (intros [<-|[]]; cbn; lia).
  destruct (N.ltb_spec s lo), (N.ltb_spec hi e); cbn [In]; intros HI Hse; try contradiction;
    repeat (destruct HI as [<-|HI]; [cbn; lia|]); contradiction.
Qed.

(** ** Maps changed at some addresses, each at most once *)
Definition touched {A} (f f' : N -> option A) (X : N -> Prop) (E : A -> A -> Prop) : Prop :=
  forall a, (X a /\ exists s s', f a = Some s /\ f' a = Some s' /\ E s s') \/ (~ X a /\ f' a = f a).

Lemma touched_none : forall {A} (f : N -> option A) X E, (forall a, ~ X a) -> touched f f X E.
Proof. intros A f X E H a. right. auto. Qed.
Lemma touched_both : forall {A} (f f1 f2 : N -> option A) X Y (E : A -> A -> Prop),
  touched f f1 X E -> touched f1 f2 Y E -> (forall s s' s'', E s s' -> E s' s'' -> False) ->
  touched f f2 (fun a => X a \/ Y a) E /\ (forall a, X a -> Y a -> False).
Proof.
  intros A f f1 f2 X Y E H1 H2 HE.
  assert (D : forall a, X a -> Y a -> False).
  { intros a HX HY. destruct (H1 a) as [(_ & s & s' & _ & F & E1)|(N & _)]; [|contradiction].
    destruct (H2 a) as [(_ & t & t' & F' & _ & E2)|(N & _)]; [|contradiction].
    assert (t = s') by congruence. subst t. eauto. }
  split; [|exact D]. intros a. destruct (H1 a) as [(HX & s & s' & F & F1 & E1)|(NX & F1)], (H2 a) as [(HY & t & t' & F2 & F3 & E2)|(NY & F2)].
  - exfalso; eauto.
  - left. split; [auto|]. exists s, s'. rewrite F2. auto.
  - left. split; [auto|]. exists t, t'. rewrite <- F1. auto.
  - right. split; [tauto|congruence].
Qed.
Lemma touched_same : forall {A} (f f' : N -> option A) X Y (E E' : A -> A -> Prop), touched f f' X E ->
  (forall a, X a <-> Y a) -> (forall s s', E s s' -> E' s s') -> touched f f' Y E'.
Proof.
  intros A f f' X Y E E' H HX HE a. destruct (H a) as [(B & s & s' & C & D & F)|(B & C)].
  - left. split; [now apply HX|]. exists s, s'. auto.
  - right. split; [|exact C]. now rewrite <- HX.
Qed.

(** ** One range *)
Definition at_mem (s : spin) (a : N) : option mstate := state_at (g_blocks (sp_gcd s)) a.

Definition mem_ok (s : spin) : Prop :=
  map_ok (sp_gcd s) /\ 0 < g_max (sp_gcd s) < two64 /\ sp_pt s = None.
Definition mem_kept (s s' : spin) : Prop :=
  mem_ok s' /\ g_max (sp_gcd s') = g_max (sp_gcd s) /\ s_dbg s' = s_dbg s /\ (sp_alarm s = true -> sp_alarm s' = true).
Lemma mem_kept_refl : forall s, mem_ok s -> mem_kept s s.
Proof. intros s H. split; auto. Qed.
Lemma mem_kept_trans : forall a b c, mem_kept a b -> mem_kept b c -> mem_kept a c.
Proof. intros a b c (A1 & A2 & A3 & A4) (B1 & B2 & B3 & B4). split; [exact B1|]. split; [congruence|]. split; [congruence|auto]. Qed.

(** [attrs], or read protection alone after a complaint. *)
Definition given (s : spin) (attrs got : N) : Prop := got = attrs \/ (sp_alarm s = true /\ got = MEMORY_RP).
Definition new_state (s' : spin) (ty : mem_type) (attr attrs : N) (st st' : mstate) : Prop :=
  ms_alloc st = false /\ ms_type st = NonExistent /\ ty <> NonExistent /\
  exists got, given s' attrs got /\
    st' = mkMs false ty (added_caps ty (get_capabilities ty attr)) got (ms_image st) (ms_device st).
Lemma given_mono : forall s s' a g, mem_kept s s' -> given s a g -> given s' a g.
Proof. intros s s' a g (_ & _ & _ & K) [H|(H & H')]; [left; exact H|right; auto]. Qed.

Definition attrs_or_rp (m : option N) : N := match m with Some a => a | None => MEMORY_RP end.

Lemma set_once : forall s base len m st, mem_ok s -> 0 < len -> base + len <= g_max (sp_gcd s) ->
  uniform (sp_gcd s) base len st ->
  exists r s', spin_set_attributes s base len m = (r, s') /\
    (r = SErr NotReady -> N.land m PAGING_MASK <> 0 /\ mem_kept s s' /\
       (range_changed (g_blocks (sp_gcd s)) (g_blocks (sp_gcd s')) base len st
          (mkMs (ms_alloc st) (ms_type st) (ms_caps st) m (ms_image st) (ms_device st)) \/
        (sp_alarm s' = true /\ sp_gcd s' = sp_gcd s))).
Proof.
  intros s base len m st (HM & Hmax & HP) Hl Hle HU.
  assert (Wb : word base) by (unfold word; lia). assert (Wl : word len) by (unfold word; lia).
  destruct (uniform_turn _ _ _ _ HM Hmax Hl Hle HU) as (d & D1 & D2 & D3 & D4 & D5).
  unfold spin_set_attributes. unfold uadd at 1. rewrite (proj2 (N.ltb_lt (base + len) two64)) by lia.
  unfold attrs_fuel. cbn [set_attrs_loop].
  rewrite (proj2 (N.leb_gt (base + len) base)) by lia. rewrite D1. unfold uadd. rewrite (proj2 (N.ltb_lt (b_base d + b_len d) two64)) by lia. rewrite D3.
  unfold usub. rewrite (proj2 (N.leb_le base (base + len))) by lia. replace (base + len - base) with len by lia.
  assert (FIN : forall s1 nr fuel, set_attrs_loop (S fuel) s1 (base + len) (base + len) m nr =
             (if nr then SErr NotReady else SOk tt, notify s1 NSetAttributes)).
  { intros s1 nr fuel. cbn [set_attrs_loop]. rewrite N.leb_refl. reflexivity. }
  unfold swallow_set. destruct (set_memory_space_attributes (sp_gcd s) base len m) as [[u|e|] g'] eqn:ES.
  - assert (PG : set_paging_attributes (with_gcd s g') base len m = (SErr NotReady, with_gcd s g'))
      by (unfold set_paging_attributes; cbn [with_gcd sp_pt]; rewrite HP; reflexivity).
    destruct (N.eqb_spec (N.land m PAGING_MASK) 0) as [Z|Z].
    + cbn [set_attrs_loop] in FIN. rewrite N.leb_refl. eexists _, _. split; [reflexivity|]. discriminate.
    + rewrite PG, N.leb_refl. eexists _, _. split; [reflexivity|]. intros _. split; [exact Z|].
      destruct u. destruct (set_gcd_ok _ _ _ _ _ HM Hmax Wb Wl ES)
        as (F & M' & _ & _ & s0 & s1 & _ & _ & CE & RC).
      pose proof (same_frame_max _ _ F) as (F1 & F2 & _). cbn [call_effect] in CE. destruct CE as (_ & _ & ->).
      assert (s0 = st).
      { assert (IB : in_range base len base) by (unfold in_range; lia). destruct (proj1 RC base IB) as (X & _).
        rewrite (HU base IB) in X. congruence. }
      subst s0. split.
      * unfold mem_kept, mem_ok, s_dbg. cbn [notify with_gcd sp_gcd sp_pt sp_alarm]. rewrite F1. auto 10.
      * left. exact RC.
  - assert (EG : g' = sp_gcd s).
    { pose proof (set_attributes_step (sp_gcd s) base len m (Err e) g' HM Hmax Wb Wl) as P.
      rewrite ES in P. specialize (P eq_refl). cbn [step_post is_free] in P. destruct P as [P|(P & _)]; [exact P|discriminate]. }
    unfold assert_then. destruct (s_dbg (with_gcd s g')) eqn:ED.
    + eexists _, _. split; [reflexivity|]. discriminate.
    + assert (PG : set_paging_attributes (alarmed (with_gcd s g')) base len m = (SErr NotReady, alarmed (with_gcd s g')))
        by (unfold set_paging_attributes; cbn [alarmed with_gcd sp_pt]; rewrite HP; reflexivity).
      destruct (N.eqb_spec (N.land m PAGING_MASK) 0) as [Z|Z].
      * rewrite N.leb_refl. eexists _, _. split; [reflexivity|]. discriminate.
      * rewrite PG, N.leb_refl. eexists _, _. split; [reflexivity|]. intros _. split; [exact Z|]. subst g'. split.
        { unfold mem_kept, mem_ok, s_dbg. cbn [notify with_gcd alarmed sp_gcd sp_pt sp_alarm]. auto 10. }
        right. cbn. auto.
  - eexists _, _. split; [reflexivity|]. discriminate.
Qed.

Lemma map_range_ok : forall s ty b e attr m s', mem_ok s -> word b -> word e -> get_capabilities ty attr < two64 ->
  map_range s ty (b, e) attr m = BOk s' ->
  mem_kept s s' /\ b < e /\ e <= g_max (sp_gcd s) /\
  touched (at_mem s) (at_mem s') (fun a => b <= a < e) (new_state s' ty attr (attrs_or_rp m)).
Proof.
  intros s ty b e attr m s' HO Wb We Wc H. pose proof HO as (HM & Hmax & HP).
  unfold map_range in H. cbn [fst snd] in H.
  destruct (spin_add s ty b (e - b) (get_capabilities ty attr)) as [[v|er| |] s1] eqn:EA; try discriminate.
  unfold spin_add in EA. destruct (add_memory_space (sp_gcd s) ty b (e - b) (get_capabilities ty attr)) as [[v'|er|] g1] eqn:EG;
    try discriminate. injection EA as <- <-.
  pose proof (gcd_step_map (sp_gcd s) (OpAdd ty b (e - b) (get_capabilities ty attr)) (Ok v') g1 HM Hmax) as P.
  cbn [gcd_step op_wf] in P. specialize (P ltac:(unfold word in *; lia) EG). cbn [step_post is_free] in P.
  destruct P as [(F & _)|(F & M1 & b0 & l0 & st & st' & C & L & R & E & RC)]; [discriminate|].
  cbn [call_range] in C. injection C as <- <-.
  pose proof (same_frame_max _ _ F) as (F1 & F2 & _).
  cbn [call_effect] in E. destruct E as (E1 & E2 & E3 & E4).
  set (sa := notify (with_gcd s g1) NAdd) in *.
  assert (Ka : mem_kept s sa).
  { unfold mem_kept, mem_ok, s_dbg, sa. cbn [notify with_gcd sp_gcd sp_pt sp_alarm]. rewrite F1. auto 10. }
  assert (LT : b < e) by lia. assert (BL : b + (e - b) = e) by lia.
  destruct RC as (RC1 & RC2). unfold in_range in RC1, RC2. rewrite BL in *.
  destruct m as [m|].
  - destruct (set_once sa b (e - b) m st' (proj1 Ka)) as (r & s2 & Q & QQ).
    { lia. } { unfold sa. cbn [notify with_gcd sp_gcd]. rewrite F1. lia. }
    { intros a Ha. unfold in_range in Ha. apply RC1. lia. }
    rewrite Q in H. destruct r as [u|er| |]; try discriminate. destruct er; try discriminate. injection H as <-.
    destruct (QQ eq_refl) as (Z & K2 & CH). split; [eapply mem_kept_trans; eauto|]. split; [exact LT|]. split; [exact R|].
    destruct CH as [(CH1 & CH2)|(AL & SG)].
    + intros a. destruct (N.leb_spec b a), (N.ltb_spec a e); [left|right|right|lia].
      * split; [lia|]. exists st, (mkMs (ms_alloc st') (ms_type st') (ms_caps st') m (ms_image st') (ms_device st')).
        split; [apply RC1; lia|]. split; [apply CH1; unfold in_range; lia|]. split; [exact E1|]. split; [exact E2|]. split; [exact E3|].
        exists m. split; [left; reflexivity|]. subst st'. reflexivity.
      * split; [lia|]. unfold at_mem. rewrite CH2 by (unfold in_range; lia). apply RC2. lia.
      * split; [lia|]. unfold at_mem. rewrite CH2 by (unfold in_range; lia). apply RC2. lia.
    + intros a. unfold at_mem. rewrite SG. destruct (N.leb_spec b a), (N.ltb_spec a e); [left|right|right|lia].
      * split; [lia|]. exists st, st'. split; [apply RC1; lia|]. split; [apply RC1; lia|].
        split; [exact E1|]. split; [exact E2|]. split; [exact E3|]. exists MEMORY_RP. split; [right; auto|exact E4].
      * split; [lia|]. apply RC2. lia.
      * split; [lia|]. apply RC2. lia.
  - injection H as <-. split; [exact Ka|]. split; [exact LT|]. split; [exact R|].
    intros a. destruct (N.leb_spec b a), (N.ltb_spec a e); [left|right|right|lia].
    + split; [lia|]. exists st, st'. split; [apply RC1; lia|]. split; [apply RC1; lia|].
      split; [exact E1|]. split; [exact E2|]. split; [exact E3|]. exists MEMORY_RP. split; [left; reflexivity|exact E4].
    + split; [lia|]. apply RC2. lia.
    + split; [lia|]. apply RC2. lia.
Qed.

Lemma new_state_twice : forall s1 s2 ty1 ty2 a1 a2 m1 m2 x y z, new_state s1 ty1 a1 m1 x y -> new_state s2 ty2 a2 m2 y z -> False.
Proof. intros s1 s2 ty1 ty2 a1 a2 m1 m2 x y z (_ & _ & T & g & _ & ->) (_ & T' & _). cbn in T'. contradiction. Qed.
Lemma new_state_mono : forall s s' ty a m x y, mem_kept s s' -> new_state s ty a m x y -> new_state s' ty a m x y.
Proof.
  intros s s' ty a m x y K (A & B & C & g & G & D). split; [exact A|]. split; [exact B|]. split; [exact C|]. exists g.
  split; [eapply given_mono; eauto|exact D].
Qed.

Lemma map_ranges_ok : forall l s ty attr m s', mem_ok s -> get_capabilities ty attr < two64 ->
  (forall r, In r l -> word (fst r) /\ word (snd r)) ->
  map_ranges s ty l attr m = BOk s' ->
  mem_kept s s' /\
  touched (at_mem s) (at_mem s') (fun a => exists r, In r l /\ fst r <= a < snd r) (new_state s' ty attr (attrs_or_rp m)).
Proof.
  induction l as [|[b e] l IH]; intros s ty attr m s' HO Wc HW H; cbn [map_ranges] in H.
  - injection H as <-. split; [now apply mem_kept_refl|]. apply touched_none. intros a (r & [] & _).
  - destruct (map_range s ty (b, e) attr m) as [s1| |] eqn:E1; try discriminate.
    destruct (HW (b, e) (or_introl eq_refl)) as (W1 & W2). cbn in W1, W2.
    destruct (map_range_ok _ _ _ _ _ _ _ HO W1 W2 Wc E1) as (K1 & _ & _ & T1).
    destruct (IH s1 ty attr m s' (proj1 K1) Wc (fun r I => HW r (or_intror I)) H) as (K2 & T2).
    split; [eapply mem_kept_trans; eauto|].
    assert (T1' : touched (at_mem s) (at_mem s1) (fun a => b <= a < e) (new_state s' ty attr (attrs_or_rp m))).
    { eapply touched_same; [exact T1|tauto|]. intros x y. apply new_state_mono. exact K2. }
    destruct (touched_both _ _ _ _ _ _ T1' T2) as (T & _).
    { intros x y z A B. exact (new_state_twice _ _ _ _ _ _ _ _ _ _ _ A B). }
    eapply touched_same; [exact T| |auto]. intros a. split.
    + intros [HX|(r & I & HX)]; [exists (b, e)|exists r]; cbn; auto.
    + intros (r & [<-|I] & HX); [left; exact HX|right; eauto].
Qed.

(** ** One descriptor *)
Lemma caps_word : forall ty attr, get_capabilities ty attr < two64.
Proof.
  intros ty attr. destruct (N.ltb_spec (get_capabilities ty attr) two64) as [H|H]; [exact H|exfalso].
  assert (H0 : get_capabilities ty attr <> 0) by (unfold two64 in H; lia).
  pose proof (N.bit_log2 _ H0) as B. rewrite (get_capabilities_spec ty attr) in B.
  assert (L : 64 <= N.log2 (get_capabilities ty attr)).
  { apply (N.log2_le_mono two64) in H. exact H. }
  set (i := N.log2 (get_capabilities ty attr)) in *. clearbody i. clear - B L.
  assert (X : capability_source ty i = None).
  { unfold capability_source. destruct i as [|p]; [lia|].
    do 6 (destruct p as [p|p|]; try (exfalso; lia)); destruct p; reflexivity. }
  rewrite X in B. discriminate.
Qed.

Lemma io_map_inv : forall g, io_map_ok g <-> io_inv g.
Proof.
  intros g. unfold io_map_ok, io_inv, io_ok, clen. split.
  - intros (A & B & C & D & [(E & F)|(E & F)]); [left|right; auto].
    unfold io_view in *. destruct (i_blocks g); [congruence|]. auto.
  - intros [(A & B & C & D & E)|(A & B & C)].
    + assert (N0 : i_blocks g <> []) by (intros X; rewrite X in B; cbn in B; lia).
      unfold io_view. destruct (i_blocks g); [congruence|]. auto 10.
    + split; [exact A|]. unfold io_view. rewrite B. cbn. unfold b_end; cbn. repeat split; try lia; try tauto. unfold IO_BLOCK_SLICE_LEN; lia.
Qed.

Definition world_kept (w w' : world) : Prop :=
  world_ok w' /\ g_max (sp_gcd (w_mem w')) = g_max (sp_gcd (w_mem w)) /\ i_max (w_io w') = i_max (w_io w) /\
  w_dbg w' = w_dbg w /\ (sp_alarm (w_mem w) = true -> sp_alarm (w_mem w') = true).
Lemma world_kept_refl : forall w, world_ok w -> world_kept w w.
Proof. intros w H. split; auto. Qed.
Lemma world_kept_trans : forall a b c, world_kept a b -> world_kept b c -> world_kept a c.
Proof.
  intros a b c (A1 & A2 & A3 & A4 & A5) (B1 & B2 & B3 & B4 & B5).
  split; [exact B1|]. split; [congruence|]. split; [congruence|]. split; [congruence|auto].
Qed.

Lemma asks_unique : forall d t t', asks_for d t -> asks_for d t' -> t = t'.
Proof.
  intros d t t' H H'.
  destruct (N.eq_dec (d_type d) 0) as [E|E].
  - rewrite <- (asks_system_type d t E H). now apply asks_system_type.
  - inversion H; inversion H'; try contradiction; subst; try reflexivity; exfalso;
      repeat match goal with X : _ \/ _ |- _ => destruct X end; congruence.
Qed.

(** What happened to the I/O map because of [d]. *)
Definition io_new_state (d : desc) (s s' : iostate) : Prop :=
  is_alloc s = false /\ is_type s = IoNonExistent /\
  exists ty, asks_for_io d ty /\ s' = mkIs false ty (is_image s) (is_device s).

Lemma add_io_ok : forall w ty d w', world_ok w -> desc_wf d -> asks_for_io d ty ->
  add_io w ty (d_start d) (d_len d) = BOk w' ->
  w_mem w' = w_mem w /\ world_kept w w' /\ touched (io_at w) (io_at w') (in_desc d) (io_new_state d).
Proof.
  intros w ty d w' (M & Mx & P & I) (_ & _ & W1 & W2 & _) HA H. unfold add_io in H. apply io_map_inv in I.
  destruct (add_io_space (w_io w) ty (d_start d) (d_len d)) as [[v|e|] io'] eqn:E; try discriminate. injection H as <-.
  pose proof (io_step_post (w_io w) (IoAdd ty (d_start d) (d_len d)) (Ok v) io' I) as Q. cbn [io_op_wf io_step] in Q.
  specialize (Q (conj W1 W2)). rewrite E in Q. specialize (Q eq_refl). cbn [io_post] in Q.
  destruct Q as ((F1 & F2 & F3) & base & len & s & s' & R & L & Le & EF & (RC1 & RC2)).
  cbn [io_range] in R. injection R as <- <-. split; [reflexivity|]. split.
  - unfold world_kept, world_ok, w_dbg. cbn [w_mem w_io]. rewrite io_map_inv. auto 12.
  - intros a. unfold io_at, in_desc. cbn [w_io]. destruct (N.leb_spec (d_start d) a), (N.ltb_spec a (d_start d + d_len d));
      [left|right|right|lia].
    + split; [lia|]. exists s, s'. cbn [io_effect] in EF. destruct EF as (E1 & E2 & E3 & E4).
      split; [apply RC1; unfold in_range; lia|]. split; [apply RC1; unfold in_range; lia|].
      split; [exact E1|]. split; [exact E2|]. eauto.
    + split; [lia|]. apply RC2. unfold in_range; lia.
    + split; [lia|]. apply RC2. unfold in_range; lia.
Qed.

Definition claims_memory_at lo hi d a := claims_memory lo hi a d.
Definition claims_io_at d a := claims_io a d.

Lemma decode_ok : forall w d ty w', world_ok w -> desc_wf d -> decode w d = BOk (ty, w') ->
  world_kept w w' /\ (forall a, mem_at w' a = mem_at w a) /\
  (ty = NonExistent -> forall t, ~ asks_for d t) /\ (ty <> NonExistent -> asks_for d ty) /\
  touched (io_at w) (io_at w') (claims_io_at d) (io_new_state d).
Proof.
  intros w d ty w' HO HD H. unfold decode in H.
  assert (NOIO : d_type d <> 2 -> d_type d <> 6 -> touched (io_at w) (io_at w) (claims_io_at d) (io_new_state d)).
  { intros N2 N6. apply touched_none. intros a (_ & t & [X|X]); contradiction. }
  assert (IOT : forall t w1, asks_for_io d t -> touched (io_at w) (io_at w1) (in_desc d) (io_new_state d) ->
            touched (io_at w) (io_at w1) (claims_io_at d) (io_new_state d)).
  { intros t w1 HA HT. eapply touched_same; [exact HT| |auto]. intros a. unfold claims_io_at, claims_io. split; [eauto|tauto]. }
  destruct (N.eqb_spec (d_type d) 0) as [T0|T0].
  { injection H as <- <-. split; [now apply world_kept_refl|]. split; [reflexivity|]. split.
    - intros E t A. apply asks_system_type in A as A'; [|exact T0]. rewrite E in A'. subst t.
      inversion A; discriminate || (subst; repeat match goal with X : _ \/ _ |- _ => destruct X end; congruence).
    - split; [intros N0; now apply asks_for_system|]. apply NOIO; lia. }
  destruct (N.eqb_spec (d_type d) 1) as [T1|T1]; [|destruct (N.eqb_spec (d_type d) 3) as [T3|T3]]; cbn [orb] in H.
  1,2: injection H as <- <-; split; [now apply world_kept_refl|]; split; [reflexivity|]; split; [discriminate|];
    split; [intros _; apply asks_mmio; tauto|apply NOIO; lia].
  destruct (N.eqb_spec (d_type d) 4) as [T4|T4]; [|destruct (N.eqb_spec (d_type d) 5) as [T5|T5]]; cbn [orb] in H.
  1,2: injection H as <- <-; split; [now apply world_kept_refl|]; split; [reflexivity|]; split; [discriminate|];
    split; [intros _; apply asks_reserved; tauto|apply NOIO; lia].
  assert (NOMEM : forall t, ~ asks_for d t).
  { intros t A. inversion A; repeat match goal with X : _ \/ _ |- _ => destruct X end; congruence. }
  destruct (N.eqb_spec (d_type d) 2) as [T2|T2].
  { destruct (add_io w IoIo (d_start d) (d_len d)) as [w1| |] eqn:E; try discriminate. injection H as <- <-.
    destruct (add_io_ok w IoIo d w1 HO HD (asks_io d T2) E) as (A & B & C).
    split; [exact B|]. split; [intros a; unfold mem_at; now rewrite A|]. split; [auto|]. split; [congruence|].
    eapply IOT; eauto. now apply asks_io. }
  destruct (N.eqb_spec (d_type d) 6) as [T6|T6].
  { destruct (add_io w IoReserved (d_start d) (d_len d)) as [w1| |] eqn:E; try discriminate. injection H as <- <-.
    destruct (add_io_ok w IoReserved d w1 HO HD (asks_io_reserved d T6) E) as (A & B & C).
    split; [exact B|]. split; [intros a; unfold mem_at; now rewrite A|]. split; [auto|]. split; [congruence|].
    eapply IOT; eauto. now apply asks_io_reserved. }
  destruct (w_dbg w) eqn:ED; [discriminate|]. injection H as <- <-. split.
  { destruct HO as (A & B & C & D). unfold world_kept, world_ok, w_dbg, s_dbg. cbn. auto 12. }
  split; [reflexivity|]. split; [auto|]. split; [congruence|]. apply (NOIO T2 T6).
Qed.

(** The attributes recorded: those chosen, or read protection alone after a complaint. *)
Definition mem_new_state (w' : world) (d : desc) (s s' : mstate) : Prop :=
  exists got ty, asks_for d ty /\ given (w_mem w') (chosen_attributes ty d) got /\ entered d got s s'.

Lemma requested_chosen : forall ty d, attrs_or_rp (requested_attributes ty d) = chosen_attributes ty d.
Proof.
  intros ty d. unfold requested_attributes, chosen_attributes. destruct (d_v2 d); [|reflexivity]. cbn [attrs_or_rp].
  change CACHE_ATTRIBUTE_MASK with 0x101F. destruct ty; cbn [mt_eqb]; rewrite ?N.lor_0_r; reflexivity.
Qed.

Lemma add_descriptor_ok : forall w lo hi d w', world_ok w -> desc_wf d -> add_descriptor w (lo, hi) d = BOk w' ->
  world_kept w w' /\
  touched (mem_at w) (mem_at w') (claims_memory_at lo hi d) (mem_new_state w' d) /\
  touched (io_at w) (io_at w') (claims_io_at d) (io_new_state d).
Proof.
  intros w lo hi d w' HO HD H. unfold add_descriptor in H.
  destruct (N.ltb_spec (d_start d + d_len d) two64) as [W|]; [|discriminate].
  destruct (decode w d) as [[ty w1]| |] eqn:E; try discriminate.
  destruct (decode_ok _ _ _ _ HO HD E) as (K1 & S1 & NM & YM & T1).
  destruct (mt_eqb ty NonExistent) eqn:EN.
  - apply mt_eqb_spec in EN. injection H as <-. split; [exact K1|]. split; [|exact T1].
    intros a. right. split; [|apply S1]. intros (_ & t & A). apply (NM EN t A).
  - apply mt_neq in EN. destruct (attributes_valid (d_attr d)); [|discriminate].
    destruct (map_ranges (w_mem w1) ty _ _ _) as [s| |] eqn:EM; try discriminate. injection H as <-.
    destruct K1 as (K1 & K2 & K3 & K4 & K5). pose proof K1 as (L1 & L2 & L3 & L4).
    assert (WR : forall r, In r (split_ranges (d_start d, d_start d + d_len d) (lo, hi)) -> word (fst r) /\ word (snd r)).
    { intros r I. pose proof (split_bounds _ _ _ _ _ I ltac:(lia)) as SB.
      pose proof (split_order _ _ _ _ _ I ltac:(lia)) as SO. unfold word. lia. }
    destruct (map_ranges_ok _ _ _ _ _ _ (conj L1 (conj L2 L3)) (caps_word ty (d_attr d)) WR EM) as ((M1 & M2 & M3 & M4) & T2).
    destruct M1 as (M1 & M1' & M1'').
    split.
    { unfold world_kept, world_ok, w_dbg in *. cbn [w_mem w_io]. rewrite M2, M3. auto 12. }
    split; [|exact T1].
    eapply (@touched_same mstate (mem_at w) _ (fun a => claims lo hi d a)).
    + intros a. specialize (T2 a). unfold at_mem in T2. change (state_at (g_blocks (sp_gcd (w_mem w1))) a) with (mem_at w1 a) in T2.
      rewrite S1 in T2.
      assert (X : (exists r, In r (split_ranges (d_start d, d_start d + d_len d) (lo, hi)) /\ fst r <= a < snd r) <-> claims lo hi d a).
      { rewrite split_covers by lia. unfold claims, in_desc. reflexivity. }
      rewrite X in T2. exact T2.
    + intros a. unfold claims_memory_at, claims_memory. split; [eauto|tauto].
    + intros x y (A & B & C & got & G & D). exists got, ty. split; [auto|]. split.
      * rewrite requested_chosen in G. exact G.
      * split; [exact A|]. split; [exact B|]. exists ty, (get_capabilities ty (d_attr d)).
        split; [auto|]. split; [apply get_capabilities_spec|exact D].
Qed.

(** ** The whole list *)
Definition mem_story (lo hi : N) (w w' : world) (ds : list desc) : Prop := forall a,
  (exists d s s', only (claims_memory lo hi a) ds d /\ mem_at w a = Some s /\ mem_at w' a = Some s' /\ mem_new_state w' d s s') \/
  (Forall (fun d => ~ claims_memory lo hi a d) ds /\ mem_at w' a = mem_at w a).
Definition io_story (w w' : world) (ds : list desc) : Prop := forall a,
  (exists d s s', only (claims_io a) ds d /\ io_at w a = Some s /\ io_at w' a = Some s' /\ io_new_state d s s') \/
  (Forall (fun d => ~ claims_io a d) ds /\ io_at w' a = io_at w a).

Lemma only_first : forall (P : desc -> Prop) d ds, P d -> Forall (fun x => ~ P x) ds -> only P (d :: ds) d.
Proof. intros P d ds H F. exists [], ds. cbn. auto. Qed.
Lemma only_later : forall (P : desc -> Prop) d ds x, ~ P d -> only P ds x -> only P (d :: ds) x.
Proof.
  intros P d ds x H (l1 & l2 & -> & A & B & C). exists (d :: l1), l2. cbn. split; [reflexivity|]. split; [exact A|]. split; [constructor; auto|exact C].
Qed.

Lemma story_cons : forall {A} (f f1 f2 : N -> option A) (P : N -> desc -> Prop) (E1 E2 : desc -> A -> A -> Prop) d ds,
  touched f f1 (fun a => P a d) (E1 d) ->
  (forall a, (exists x s s', only (P a) ds x /\ f1 a = Some s /\ f2 a = Some s' /\ E2 x s s') \/
             (Forall (fun x => ~ P a x) ds /\ f2 a = f1 a)) ->
  (forall s s', E1 d s s' -> E2 d s s') ->
  (forall x s s' s'', E1 d s s' -> E2 x s' s'' -> False) ->
  forall a, (exists x s s', only (P a) (d :: ds) x /\ f a = Some s /\ f2 a = Some s' /\ E2 x s s') \/
            (Forall (fun x => ~ P a x) (d :: ds) /\ f2 a = f a).
Proof.
  intros A f f1 f2 P E1 E2 d ds H1 H2 HE HX a.
  destruct (H1 a) as [(B & s & s' & C & D & E)|(B & C)], (H2 a) as [(x & t & t' & F & G & H & I)|(F & G)].
  - exfalso. assert (t = s') by congruence. subst t. eauto.
  - left. exists d, s, s'. split; [now apply only_first|]. split; [exact C|]. split; [congruence|auto].
  - left. exists x, t, t'. split; [now apply only_later|]. split; [congruence|auto].
  - right. split; [constructor; auto|congruence].
Qed.

Lemma add_descriptors_ok : forall l w lo hi w', world_ok w -> Forall hob_wf l -> add_descriptors w (lo, hi) l = BOk w' ->
  world_kept w w' /\ mem_story lo hi w w' (descriptors l) /\ io_story w w' (descriptors l).
Proof.
  induction l as [|h l IH]; intros w lo hi w' HO HF H; cbn [add_descriptors] in H.
  - injection H as <-. split; [now apply world_kept_refl|]. split; intros a; right; cbn; auto.
  - inversion HF as [|? ? HH HF']; subst.
    destruct h as [mb mt fb ft|m i|d|]; cbn [descriptors flat_map app] in *; try (eapply IH; eauto; fail).
    cbn [hob_wf] in HH.
    destruct (add_descriptor w (lo, hi) d) as [w1| |] eqn:E; try discriminate.
    destruct (add_descriptor_ok _ _ _ _ _ HO HH E) as (K1 & T1 & U1).
    destruct (IH w1 lo hi w' (proj1 K1) HF' H) as (K2 & T2 & U2).
    split; [eapply world_kept_trans; eauto|]. split.
    + intros a. refine (story_cons (mem_at w) (mem_at w1) (mem_at w') (claims_memory lo hi) (mem_new_state w1) (mem_new_state w') d (descriptors l) T1 T2 _ _ a).
      * intros s s' (got & ty & A & G & B). exists got, ty. split; [exact A|]. split; [|exact B].
        destruct G as [G|(G & G')]; [left; exact G|right]. split; [apply K2; exact G|exact G'].
      * intros x s s' s'' (got & ty & A & G & (B1 & B2 & t & c & C1 & C2 & ->)) (got' & ty' & A' & G' & (D1 & D2 & _)).
        cbn in D2. subst t. inversion C1.
    + intros a. refine (story_cons (io_at w) (io_at w1) (io_at w') claims_io io_new_state io_new_state d (descriptors l) U1 U2 (fun _ _ H => H) _ a).
      intros x s s' s'' (B1 & B2 & t & C1 & ->) (D1 & D2 & _). cbn in D2. subst t. inversion C1.
Qed.
