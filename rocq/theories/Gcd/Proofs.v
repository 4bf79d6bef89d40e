(** Proofs about the memory GCD. *)
From Verif Require Import Base.Prelude Align.Model Align.Proofs Align.Main Gcd.Blocks Gcd.Model Gcd.Spec Gcd.BlockProofs.
Local Open Scope N_scope.

Lemma mt_eqb_spec : forall a b, mt_eqb a b = true <-> a = b.
Proof. destruct a, b; cbn; split; intros; congruence. Qed.

Lemma mt_eqb_refl : forall a, mt_eqb a a = true.
Proof. destruct a; reflexivity. Qed.

Lemma same_state_spec : forall a b, same_state a b = true <-> a = b.
Proof.
  intros [a1 a2 a3 a4 a5 a6] [b1 b2 b3 b4 b5 b6]. unfold same_state. cbn.
  rewrite !andb_true_iff, !N.eqb_eq, mt_eqb_spec, Bool.eqb_true_iff.
  split; [intros; f_equal; tauto|intros H; inversion H; tauto].
Qed.

(** [g'] differs from [g] at most in the blocks. *)
Definition same_frame (g g' : gcd) : Prop := g' = set_blocks g (g_blocks g').

Lemma same_frame_refl : forall g, same_frame g g.
Proof. intros []. reflexivity. Qed.

Lemma same_frame_trans : forall a b c, same_frame a b -> same_frame b c -> same_frame a c.
Proof.
  unfold same_frame, set_blocks. intros [] [] []. cbn. intros H1 H2. inversion H1; inversion H2; subst; reflexivity.
Qed.

Lemma set_blocks_id : forall g, set_blocks g (g_blocks g) = g.
Proof. intros []. reflexivity. Qed.

(** Looking up the block for an address. *)
Lemma find_block : forall g base, map_ok g -> 0 < g_max g ->
  exists pre b post, g_blocks g = pre ++ b :: post /\
    closest (g_blocks g) base = Some (b_base b) /\ lookup (g_blocks g) (b_base b) = Some b /\
    b_base b <= base /\ (base < g_max g -> base < b_end b).
Proof.
  intros g base (HT & HM & _) Hm.
  destruct (N.lt_ge_cases base (g_max g)) as [Hlt|Hge].
  - destruct (closest_in _ _ _ base HT) as (pre & b & post & E & C & R); [lia|].
    exists pre, b, post. rewrite E in *. split; [reflexivity|]. split; [exact C|]. split.
    + apply lookup_mid. apply tiles_mid in HT. destruct HT as (T1 & _). eapply tiles_below; eauto.
    + split; [lia|]. intros _. lia.
  - pose proof (closest_spec _ _ _ base HT) as C. destruct (closest (g_blocks g) base) as [k|] eqn:EC.
    + destruct C as (pre & b & post & E & <- & K & A). exists pre, b, post. rewrite E in *.
      split; [reflexivity|]. split; [reflexivity|]. split.
      * apply lookup_mid. apply tiles_mid in HT. destruct HT as (T1 & _). eapply tiles_below; eauto.
      * split; [lia|]. intros; lia.
    + destruct C as [C|C]; [lia|]. rewrite C in HT. cbn in HT. lia.
Qed.

Definition gsst_post (g : gcd) (b : mblock) (base len : N) (t : transition) (r : res ierr N) (g' : gcd) : Prop :=
  same_frame g g' /\
  sst_post (g_dbg g) (g_cap g) 0 (g_max g) (g_blocks g) b base len (state_transition t) r (g_blocks g').

Lemma g_sst_spec : forall g pre b post base len t,
  map_ok g -> g_max g < two64 -> g_blocks g = pre ++ b :: post -> word base -> word len ->
  let (r, g') := g_sst g (b_base b) base len t in gsst_post g b base len t r g'.
Proof.
  intros g pre b post base len t (HT & HM & HC & HC2) Hmax E Hb Hl. unfold g_sst, gsst_post.
  rewrite E in *.
  pose proof (sst_at_spec same_state same_state_spec (g_dbg g) (g_cap g) 0 (g_max g) pre b post base len
                (state_transition t) HT HM Hb Hl Hmax) as H.
  destruct (sst_at _ _ _ _ _ _ _ _) as [r l']. cbn [set_blocks g_blocks]. split; [reflexivity|exact H].
Qed.

(** After a successful transition the map is again well formed. *)
Lemma gsst_ok_map : forall g b base len t k g', map_ok g -> gsst_post g b base len t (Ok k) g' -> map_ok g'.
Proof.
  intros g b base len t k g' (HT & HM & HC & HC2) (HF & HP). cbn [sst_post] in HP.
  destruct HP as (_ & T & M & _ & C & _). rewrite HF. unfold map_ok. cbn. repeat split; auto.
Qed.

Lemma gsst_err : forall g b base len t e g', gsst_post g b base len t (Err e) g' -> g' = g /\ e <> AlreadyExists.
Proof.
  intros g b base len t e g' (HF & HP). rewrite HF. cbn [sst_post] in HP.
  destruct e; try (destruct HP as (HP & _); rewrite HP, set_blocks_id; split; [reflexivity|congruence]); tauto.
Qed.
Lemma uadd_ok : forall E dbg a b r, uadd (E := E) dbg a b = Ok r -> a < two64 -> b < two64 ->
  r = a + b \/ (two64 <= a + b /\ r = a + b - two64 /\ r < a /\ r < b).
Proof.
  intros E dbg a b r H Ha Hb. unfold uadd in H.
  destruct (N.ltb_spec (a + b) two64).
  - inversion H. auto.
  - destruct dbg; [discriminate|]. inversion H. right.
    rewrite <- (N.mod_unique (a + b) two64 1 (a + b - two64)); lia.
Qed.

Lemma uadd_small : forall E dbg a b, a + b < two64 -> uadd (E := E) dbg a b = Ok (a + b).
Proof. intros. unfold uadd. destruct (N.ltb_spec (a + b) two64); [reflexivity|lia]. Qed.

Lemma check_range_ok : forall g base len p, check_range g base len p = Ok tt -> 0 < len.
Proof.
  intros g base len p. unfold check_range.
  destruct (g_max g =? 0); [discriminate|]. destruct (N.eqb_spec len 0); [discriminate|]. lia.
Qed.

Lemma check_range_panic : forall g b l p, check_range g b l p = Panic -> g_dbg g = true.
Proof.
  intros g b l p EC. unfold check_range, uadd in EC.
  destruct (g_max g =? 0); [discriminate|]. destruct (l =? 0); [discriminate|].
  destruct (b + l <? two64); cbn [bind] in EC.
  { destruct (g_max g <? b + l); [discriminate|]. destruct (p && _); discriminate. }
  destruct (g_dbg g); [reflexivity|]. cbn [bind] in EC.
  destruct (g_max g <? (b + l) mod two64); [discriminate|]. destruct (p && _); discriminate.
Qed.

(** ** One-transition calls *)

(** The summary of a call that performs one transition [t] on [base,len): used for all services. *)
Definition one_step (g : gcd) (base len : N) (t : transition) (ok : bool) (g' : gcd) : Prop :=
  if ok then
    same_frame g g' /\ map_ok g' /\ 0 < len /\ base + len <= g_max g /\
    exists s s', state_transition t s = Some s' /\ range_changed (g_blocks g) (g_blocks g') base len s s'
  else g' = g.

Lemma gsst_one_step : forall g pre b post base len t k g', map_ok g -> g_blocks g = pre ++ b :: post ->
  gsst_post g b base len t (Ok k) g' ->
  one_step g base len t true g' /\
  (exists s', state_transition t (b_st b) = Some s' /\
   range_changed (g_blocks g) (g_blocks g') base len (b_st b) s') /\ fits b base len.
Proof.
  intros g pre b post base len t k g' HM E HP.
  pose proof (gsst_ok_map _ _ _ _ _ _ _ HM HP) as HM'.
  destruct HP as (HF & HP). cbn [sst_post] in HP. destruct HP as (F & T & M & _ & C & s' & Htr & HR & _).
  split; [|split; [|exact F]].
  - cbn [one_step]. destruct HM as (HT & _). rewrite E in HT. apply tiles_mid in HT.
    destruct HT as (T1 & T2 & T3). apply tiles_le in T3. destruct F as (F1 & F2 & F3).
    repeat split; auto; try apply HM'. lia. exists (b_st b), s'. auto.
  - exists s'. auto.
Qed.

(** Generic frame for the services of the shape
    closest -> sst -> map the error. *)
Lemma closest_sst : forall g base len t, map_ok g -> 0 < g_max g < two64 -> word base -> word len ->
  exists pre b post, g_blocks g = pre ++ b :: post /\
   closest (g_blocks g) base = Some (b_base b) /\ lookup (g_blocks g) (b_base b) = Some b /\
   b_base b <= base /\ (base < g_max g -> base < b_end b) /\
   (let (r, g') := g_sst g (b_base b) base len t in gsst_post g b base len t r g').
Proof.
  intros g base len t HM Hmax Hb Hl.
  destruct (find_block g base HM) as (pre & b & post & E & C & L & B1 & B2); [lia|].
  exists pre, b, post. repeat (split; [assumption|]).
  eapply g_sst_spec; eauto. lia.
Qed.

(** In a maximally merged tiling, a range with one uniform state lies inside one block. *)
Lemma uniform_fits : forall {St} (pre : list (block St)) b post lo hi base len s,
  tiles lo hi (pre ++ b :: post) -> merged (pre ++ b :: post) ->
  b_base b <= base < b_end b -> 0 < len ->
  (forall a, in_range base len a -> state_at (pre ++ b :: post) a = Some s) ->
  fits b base len /\ s = b_st b.
Proof.
  intros St pre b post lo hi base len s HT HM HB Hl HU.
  assert (Es : s = b_st b).
  { assert (H : state_at (pre ++ b :: post) base = Some s) by (apply HU; unfold in_range; lia).
    rewrite (state_at_mid _ _ _ _ _ _ HT HB) in H. congruence. }
  split; [|exact Es]. unfold fits. split; [lia|]. split; [lia|].
  destruct (N.le_gt_cases (base + len) (b_end b)) as [|Hgt]; [assumption|exfalso].
  destruct post as [|n q].
  - apply tiles_mid in HT. destruct HT as (T1 & T2 & T3). cbn in T3.
    specialize (HU (b_end b)). rewrite state_at_app in HU.
    rewrite (state_at_out _ _ _ _ T1) in HU by (unfold b_end in *; lia). cbn [state_at] in HU.
    destruct ((b_base b <=? b_end b) && (b_end b <? b_end b)) eqn:E; [lia|].
    discriminate HU. unfold in_range. lia.
  - pose proof (HU (b_end b)) as HU2.
    change (pre ++ b :: n :: q) with (pre ++ [b] ++ n :: q) in *. rewrite app_assoc in *.
    pose proof HT as HT2. apply tiles_mid in HT2. destruct HT2 as (T1 & T2 & T3).
    apply tiles_app in T1. destruct T1 as (m & T1a & T1b). cbn in T1b. destruct T1b as (_ & _ & T1b).
    rewrite (state_at_mid _ _ _ _ _ _ HT) in HU2 by (unfold b_end in *; lia).
    rewrite <- app_assoc in HM. apply merged_app in HM. destruct HM as (_ & HM). cbn in HM.
    destruct HM as (HM & _). apply HM. rewrite <- Es. assert (X : Some (b_st n) = Some s) by (apply HU2; unfold in_range; lia).
    congruence.
Qed.

Lemma range_changed_trans : forall {St} (l1 l2 l3 : list (block St)) base len s1 s2 s2' s3,
  0 < len -> range_changed l1 l2 base len s1 s2 -> range_changed l2 l3 base len s2' s3 ->
  s2 = s2' /\ range_changed l1 l3 base len s1 s3.
Proof.
  intros St l1 l2 l3 base len s1 s2 s2' s3 Hl (A1 & A2) (B1 & B2). split.
  - destruct (A1 base) as (_ & X); [unfold in_range; lia|]. destruct (B1 base) as (Y & _); [unfold in_range; lia|].
    congruence.
  - split; intros a Ha.
    + destruct (A1 a Ha), (B1 a Ha). auto.
    + rewrite B2, A2; auto.
Qed.

(** [set_gcd_memory_attributes] *)
Lemma set_gcd_attrs_post : forall g base len attrs r g', map_ok g -> 0 < g_max g < two64 -> word base -> word len ->
  set_gcd_memory_attributes g base len attrs = (r, g') ->
  match r with
  | Ok _ => one_step g base len (TSetAttributes attrs) true g'
  | Err _ => g' = g
  | Panic => g_dbg g = true
  end.
Proof.
  intros g base len attrs r g' HM Hmax Hb Hl H. unfold set_gcd_memory_attributes in H.
  destruct (closest_sst g base len (TSetAttributes attrs) HM Hmax Hb Hl) as (pre & b & post & E & C & L & B1 & B2 & P).
  rewrite C in H. destruct (g_sst g (b_base b) base len (TSetAttributes attrs)) as [[k|e|] g1] eqn:ES.
  - inversion H; subst. eapply gsst_one_step; eauto.
  - destruct (gsst_err _ _ _ _ _ _ _ P) as (-> & Hne). unfold debug_fail in H.
    destruct e; try (destruct (g_dbg g) eqn:Ed; inversion H; subst; auto); congruence.
  - inversion H; subst. destruct P as (_ & P). cbn in P. tauto.
Qed.

(** Setting attributes on a range known to be uniform can only fail because the capabilities forbid
    it or the tree is (nearly) full. *)
Lemma set_gcd_attrs_uniform : forall g base len attrs s r g', map_ok g -> 0 < g_max g < two64 ->
  word base -> word len -> 0 < len -> base + len <= g_max g ->
  (forall a, in_range base len a -> state_at (g_blocks g) a = Some s) ->
  set_gcd_memory_attributes g base len attrs = (r, g') ->
  match r with
  | Ok _ => one_step g base len (TSetAttributes attrs) true g' /\ attribute_transition s attrs <> None
  | Err _ => g' = g /\ g_dbg g = false /\
             (attribute_transition s attrs = None \/ g_cap g < clen (g_blocks g) + 2)
  | Panic => g_dbg g = true /\ g' = g /\
             (attribute_transition s attrs = None \/ g_cap g < clen (g_blocks g) + 2)
  end.
Proof.
  intros g base len attrs s r g' HM Hmax Hb Hl Hl0 Hle HU H. unfold set_gcd_memory_attributes in H.
  destruct (closest_sst g base len (TSetAttributes attrs) HM Hmax Hb Hl) as (pre & b & post & E & C & L & B1 & B2 & P).
  pose proof HM as (HT & HMg & HC). rewrite E in HT, HMg, HU.
  destruct (uniform_fits pre b post 0 (g_max g) base len s HT HMg) as (HF & ->); auto; [lia|].
  rewrite C in H. destruct (g_sst g (b_base b) base len (TSetAttributes attrs)) as [[k|e|] g1] eqn:ES.
  - inversion H; subst. destruct (gsst_one_step g pre b post base len (TSetAttributes attrs) k g') as (A & (s' & A1 & _) & _); auto.
    split; [exact A|]. cbn in A1. congruence.
  - pose proof P as P0. destruct (gsst_err _ _ _ _ _ _ _ P) as (-> & Hne). destruct P as (_ & P). unfold debug_fail in H.
    destruct e; cbn in P.
    + destruct P as (_ & _ & P). destruct (g_dbg g) eqn:Ed; inversion H; subst; auto.
    + destruct P as (_ & P). contradiction.
    + destruct P as (_ & _ & _ & P). destruct (g_dbg g) eqn:Ed; inversion H; subst; auto.
    + contradiction.
  - destruct P as (_ & P). cbn in P. destruct P as (_ & P). exfalso. lia.
Qed.

Lemma lor_subset : forall a b, N.lor a b = a <-> bits_subset b a.
Proof.
  intros a b. unfold bits_subset. split.
  - intros H i Hi. rewrite <- H, N.lor_spec, Hi. apply orb_true_r.
  - intros H. apply N.bits_inj. intros i. rewrite N.lor_spec.
    specialize (H i). destruct (N.testbit b i); [rewrite H by reflexivity; apply orb_true_r|apply orb_false_r].
Qed.

Lemma land_subset : forall a b, N.land a b = b <-> bits_subset b a.
Proof.
  intros a b. unfold bits_subset. split.
  - intros H i Hi. rewrite <- H, N.land_spec in Hi. apply andb_true_iff in Hi. tauto.
  - intros H. apply N.bits_inj. intros i. rewrite N.land_spec.
    specialize (H i). destruct (N.testbit b i); [rewrite H by reflexivity; reflexivity|apply andb_false_r].
Qed.

Lemma attribute_transition_some : forall s a s', attribute_transition s a = Some s' <->
  ms_type s <> NonExistent /\ bits_subset a (ms_caps s) /\
  s' = mkMs (ms_alloc s) (ms_type s) (ms_caps s) a (ms_image s) (ms_device s).
Proof.
  intros s a s'. unfold attribute_transition.
  destruct (mt_eqb (ms_type s) NonExistent) eqn:E; cbn [negb].
  - apply mt_eqb_spec in E. split; [discriminate|]. tauto.
  - assert (NE : ms_type s <> NonExistent).
    { intros X. rewrite X in E. discriminate. }
    destruct (N.eqb_spec (N.lor (ms_caps s) a) (ms_caps s)) as [Q|Q]; cbn [negb].
    + apply lor_subset in Q. split; [intros H; inversion H; auto|]. intros (_ & _ & ->); reflexivity.
    + split; [discriminate|]. intros (_ & X & _). apply lor_subset in X. contradiction.
Qed.

Lemma mt_neq : forall t u, mt_eqb t u = false -> t <> u.
Proof. intros t u H X. apply mt_eqb_spec in X. congruence. Qed.

(** The outcome of a step, for a map that exists. *)
Definition free_reason (g : gcd) (s : mstate) : Prop :=
  ~ bits_subset (N.lor MEMORY_RP (N.land (ms_attrs s) CACHE_ATTRIBUTE_MASK)) (ms_caps s) \/
  g_cap g < clen (g_blocks g) + 4.

(** A free that freed the range but then could not reset its attributes. *)
Definition freed_not_reset (g : gcd) (o : gcd_op) (g' : gcd) : Prop :=
  exists base len s, call_range o 0 = Some (base, len) /\ 0 < len /\
    ms_alloc s = true /\ ms_type s <> NonExistent /\ free_reason g s /\
    same_frame g g' /\ map_ok g' /\
    range_changed (g_blocks g) (g_blocks g') base len s
      (mkMs false (ms_type s) (ms_caps s) (ms_attrs s)
            (match o with OpFreePreserving _ _ => ms_image s | _ => 0 end) 0).

Definition step_post (g : gcd) (o : gcd_op) (r : res efi_error N) (g' : gcd) : Prop :=
  match r with
  | Ok v =>
      match o with
      | OpLock => g' = lock_memory_space g
      | OpUnlock => g' = unlock_memory_space g
      | _ =>
        (is_free o = true /\ g_locked g = true /\ g' = g) \/
        (same_frame g g' /\ map_ok g' /\
         exists base len s s', call_range o v = Some (base, len) /\ 0 < len /\ base + len <= g_max g /\
            call_effect o s s' /\ range_changed (g_blocks g) (g_blocks g') base len s s')
      end
  | Err _ => g' = g \/ (is_free o = true /\ g_dbg g = false /\ freed_not_reset g o g')
  | Panic => g_dbg g = true
  end.

Lemma set_attributes_step : forall g b l a r g', map_ok g -> 0 < g_max g < two64 -> word b -> word l ->
  lift_unit (set_memory_space_attributes g b l a) = (r, g') -> step_post g (OpSetAttributes b l a) r g'.
Proof.
  intros g b l a r g' HM Hmax Hb Hl H. unfold set_memory_space_attributes in H.
  destruct (check_range g b l true) as [[]|e|] eqn:EC; cbn [lift_unit] in H.
  - destruct (set_gcd_memory_attributes g b l a) as [r1 g1] eqn:E1.
    pose proof (set_gcd_attrs_post g b l a r1 g1 HM Hmax Hb Hl E1) as P.
    destruct r1 as [[]|e|]; cbn [lift_unit] in H; inversion H; subst.
    + cbn [step_post]. right. destruct P as (F & M & L0 & Le & s & s' & T & R).
      split; [exact F|]. split; [exact M|]. exists b, l, s, s'. cbn [call_range call_effect].
      cbn in T. apply attribute_transition_some in T. auto 10.
    + cbn [step_post]. auto.
    + cbn [step_post]. auto.
  - inversion H; subst. cbn. auto.
  - inversion H; subst. eapply check_range_panic; eauto.
Qed.

Lemma capabilities_transition_some : forall s a s', capabilities_transition s a = Some s' <->
  ms_type s <> NonExistent /\ bits_subset (ms_attrs s) a /\
  s' = mkMs (ms_alloc s) (ms_type s) a (ms_attrs s) (ms_image s) (ms_device s).
Proof.
  intros s a s'. unfold capabilities_transition.
  destruct (mt_eqb (ms_type s) NonExistent) eqn:E; cbn [negb].
  - apply mt_eqb_spec in E. split; [discriminate|]. tauto.
  - apply mt_neq in E.
    destruct (N.eqb_spec (N.land a (ms_attrs s)) (ms_attrs s)) as [Q|Q]; cbn [negb].
    + apply land_subset in Q. split; [intros H; inversion H; auto|]. intros (_ & _ & ->); reflexivity.
    + split; [discriminate|]. intros (_ & X & _). apply land_subset in X. contradiction.
Qed.

Lemma set_capabilities_step : forall g b l a r g', map_ok g -> 0 < g_max g < two64 -> word b -> word l ->
  lift_unit (set_memory_space_capabilities g b l a) = (r, g') -> step_post g (OpSetCapabilities b l a) r g'.
Proof.
  intros g b l a r g' HM Hmax Hb Hl H. unfold set_memory_space_capabilities in H.
  destruct (check_range g b l true) as [[]|e|] eqn:EC; cbn [lift_unit] in H.
  - destruct (closest_sst g b l (TSetCapabilities a) HM Hmax Hb Hl) as (pre & x & post & E & C & L & B1 & B2 & P).
    rewrite C in H. destruct (g_sst g (b_base x) b l (TSetCapabilities a)) as [[k|e|] g1] eqn:ES.
    + cbn [lift_unit] in H. inversion H; subst. right.
      destruct (gsst_one_step g pre x post b l _ k g' HM E P) as ((F & M & L0 & Le & _) & (s' & A1 & A2) & _).
      cbn in A1. apply capabilities_transition_some in A1.
      split; [exact F|]. split; [exact M|]. exists b, l, (b_st x), s'. cbn [call_range call_effect]. auto 10.
    + destruct (gsst_err _ _ _ _ _ _ _ P) as (-> & Hne).
      destruct e; cbn [lift_unit] in H; inversion H; subst; cbn; auto; congruence.
    + cbn [lift_unit] in H. inversion H; subst. destruct P as (_ & P). cbn in P. cbn. tauto.
  - inversion H; subst. cbn. auto.
  - inversion H; subst. eapply check_range_panic; eauto.
Qed.

Lemma remove_transition_some : forall s s', remove_transition s = Some s' <->
  ms_alloc s = false /\ ms_type s <> NonExistent /\
  s' = mkMs false NonExistent 0 (ms_attrs s) (ms_image s) (ms_device s).
Proof.
  intros s s'. unfold remove_transition.
  destruct (ms_alloc s) eqn:EA; cbn [negb andb].
  { split; [discriminate|]. intros (X & _); discriminate. }
  destruct (mt_eqb (ms_type s) NonExistent) eqn:E; cbn [negb].
  - apply mt_eqb_spec in E. split; [discriminate|]. tauto.
  - apply mt_neq in E. split; [intros H; inversion H; auto|]. intros (_ & _ & ->); reflexivity.
Qed.

Lemma remove_step : forall g b l r g', map_ok g -> 0 < g_max g < two64 -> word b -> word l ->
  lift_unit (remove_memory_space g b l) = (r, g') -> step_post g (OpRemove b l) r g'.
Proof.
  intros g b l r g' HM Hmax Hb Hl H. unfold remove_memory_space in H.
  destruct (check_range g b l false) as [[]|e|] eqn:EC; cbn [lift_unit] in H.
  - destruct (closest_sst g b l TRemove HM Hmax Hb Hl) as (pre & x & post & E & C & L & B1 & B2 & P).
    rewrite C, L in H. destruct (g_sst g (b_base x) b l TRemove) as [[k|e|] g1] eqn:ES.
    + cbn [lift_unit] in H. inversion H; subst. right.
      destruct (gsst_one_step g pre x post b l _ k g' HM E P) as ((F & M & L0 & Le & _) & (s' & A1 & A2) & _).
      cbn in A1. apply remove_transition_some in A1.
      split; [exact F|]. split; [exact M|]. exists b, l, (b_st x), s'. cbn [call_range call_effect]. auto 10.
    + destruct (gsst_err _ _ _ _ _ _ _ P) as (-> & Hne).
      destruct e; cbn [lift_unit] in H; inversion H; subst; cbn; auto; congruence.
    + cbn [lift_unit] in H. inversion H; subst. destruct P as (_ & P). cbn in P. cbn. tauto.
  - inversion H; subst. cbn. auto.
  - inversion H; subst. eapply check_range_panic; eauto.
Qed.

Lemma add_transition_some : forall s ty c a s', add_transition s ty c a = Some s' <->
  ms_alloc s = false /\ ms_type s = NonExistent /\ ty <> NonExistent /\
  s' = mkMs false ty c a (ms_image s) (ms_device s).
Proof.
  intros s ty c a s'. unfold add_transition.
  destruct (ms_alloc s) eqn:EA; cbn [negb andb].
  { split; [discriminate|]. intros (X & _); discriminate. }
  destruct (mt_eqb (ms_type s) NonExistent) eqn:E; cbn [andb].
  - apply mt_eqb_spec in E. destruct (mt_eqb ty NonExistent) eqn:E2; cbn [negb].
    + apply mt_eqb_spec in E2. split; [discriminate|]. tauto.
    + apply mt_neq in E2. split; [intros H; inversion H; auto|]. intros (_ & _ & _ & ->); reflexivity.
  - apply mt_neq in E. split; [discriminate|]. tauto.
Qed.

Lemma add_to_blocks_step : forall g ty b l c r g', map_ok g -> 0 < g_max g < two64 -> word b -> word l ->
  add_to_blocks g ty b l c = (r, g') ->
  match r with
  | Ok v => same_frame g g' /\ map_ok g' /\ 0 < l /\ b + l <= g_max g /\
      exists s s', state_transition (TAdd ty c MEMORY_RP) s = Some s' /\
        range_changed (g_blocks g) (g_blocks g') b l s s' /\
        exists x, In x (g_blocks g') /\ b_base x = v /\ v <= b /\ b + l <= b_end x /\ b_st x = s'
  | Err _ => g' = g
  | Panic => g_dbg g = true
  end.
Proof.
  intros g ty b l c r g' HM Hmax Hb Hl H. unfold add_to_blocks in H.
  destruct (closest_sst g b l (TAdd ty c MEMORY_RP) HM Hmax Hb Hl) as (pre & x & post & E & C & L & B1 & B2 & P).
  rewrite C, L in H. destruct (negb _); [inversion H; subst; auto|].
  destruct (g_sst g (b_base x) b l (TAdd ty c MEMORY_RP)) as [[k|e|] g1] eqn:ES.
  - inversion H; subst.
    destruct (gsst_one_step g pre x post b l _ k g' HM E P) as ((F & M & L0 & Le & _) & _ & _).
    repeat (split; [assumption|]). destruct P as (_ & P). cbn [sst_post] in P.
    destruct P as (_ & _ & _ & _ & _ & s' & A1 & A2 & x' & A3). exists (b_st x), s'.
    split; [exact A1|]. split; [exact A2|]. exists x'. exact A3.
  - destruct (gsst_err _ _ _ _ _ _ _ P) as (-> & Hne).
    destruct e; inversion H; subst; cbn; auto; congruence.
  - inversion H; subst. destruct P as (_ & P). cbn in P. tauto.
Qed.

Lemma extend_caps_added : forall ty c, extend_caps ty c = added_caps ty c.
Proof.
  intros ty c. unfold extend_caps, added_caps. destruct ty; cbn [mt_eqb]; rewrite <- ?N.lor_assoc; f_equal.
Qed.

Lemma add_step : forall g ty b l c r g', map_ok g -> 0 < g_max g < two64 -> word b -> word l ->
  add_memory_space g ty b l c = (r, g') -> step_post g (OpAdd ty b l c) r g'.
Proof.
  intros g ty b l c r g' HM Hmax Hb Hl H. unfold add_memory_space in H. rewrite extend_caps_added in H.
  destruct (add_checks g b l) as [[]|e|] eqn:EC.
  - replace (g_cap g =? 0) with false in H.
    2: { destruct HM as (_ & _ & _ & ->). reflexivity. }
    pose proof (add_to_blocks_step _ _ _ _ _ _ _ HM Hmax Hb Hl H) as P.
    destruct r as [v|e|]; cbn [step_post]; auto.
    right. destruct P as (F & M & L0 & Le & s & s' & A1 & A2 & _). cbn in A1.
    apply add_transition_some in A1. split; [exact F|]. split; [exact M|].
    exists b, l, s, s'. cbn [call_range call_effect]. auto 10.
  - inversion H; subst. cbn. auto.
  - unfold add_checks in EC. destruct (g_max g =? 0); [discriminate|]. destruct (l =? 0); [discriminate|].
    destruct (_ || _); discriminate.
Qed.

Lemma free_transition_some : forall s p s', free_transition s p = Some s' <->
  ms_alloc s = true /\ ms_type s <> NonExistent /\
  s' = mkMs false (ms_type s) (ms_caps s) (ms_attrs s) (if p then ms_image s else 0) 0.
Proof.
  intros s p s'. unfold free_transition.
  destruct (ms_alloc s) eqn:EA; cbn [negb andb].
  2: { split; [discriminate|]. intros (X & _); discriminate. }
  destruct (mt_eqb (ms_type s) NonExistent) eqn:E; cbn [negb].
  - apply mt_eqb_spec in E. split; [discriminate|]. tauto.
  - apply mt_neq in E. split; [intros H; inversion H; auto|]. intros (_ & _ & ->); reflexivity.
Qed.

Lemma descriptor_at : forall g a, map_ok g -> 0 < g_max g -> a < g_max g ->
  exists b, get_memory_descriptor_for_address g a = Ok b /\ In b (g_blocks g) /\
    b_base b <= a < b_end b /\ state_at (g_blocks g) a = Some (b_st b).
Proof.
  intros g a HM Hmax Ha. unfold get_memory_descriptor_for_address.
  destruct (N.eqb_spec (g_max g) 0); [lia|].
  destruct (find_block g a HM Hmax) as (pre & b & post & E & C & L & B1 & B2).
  rewrite C, L. exists b. split; [reflexivity|]. split.
  { rewrite E. apply in_or_app. right. left. reflexivity. }
  split; [lia|]. destruct HM as (HT & _). rewrite E in *. eapply state_at_mid; eauto.
Qed.

Lemma free_step : forall (p : bool) g b l r g', map_ok g -> 0 < g_max g < two64 -> word b -> word l ->
  lift_unit (free_memory_space_worker g b l (if p then TFreePreservingOwnership else TFree)) = (r, g') ->
  step_post g (free_op p b l) r g'.
Proof.
  intros p g b l r g' HM Hmax Hb Hl H. unfold free_memory_space_worker in H.
  set (t := if p then TFreePreservingOwnership else TFree) in *.
  assert (Ht : forall s, state_transition t s = free_transition s p) by (intros; unfold t; destruct p; reflexivity).
  assert (HI : is_free (free_op p b l) = true) by (destruct p; reflexivity).
  assert (HR : forall v : N, call_range (free_op p b l) v = Some (b, l)) by (intros; destruct p; reflexivity).
  destruct (check_range g b l true) as [[]|e|] eqn:EC; cbn [lift_unit] in H.
  - destruct (closest_sst g b l t HM Hmax Hb Hl) as (pre & x & post & E & C & L & B1 & B2 & P).
    rewrite C in H. destruct (g_sst g (b_base x) b l t) as [[k|e|] g1] eqn:ES.
    + destruct (gsst_one_step g pre x post b l t k g1 HM E P) as ((F & M & L0 & Le & _) & (s' & A1 & A2) & HF).
      assert (Lg1 : clen (g_blocks g1) <= clen (g_blocks g) + 2).
      { destruct P as (_ & P). cbn [sst_post] in P. tauto. }
      assert (Emax : g_max g1 = g_max g) by (rewrite F; reflexivity).
      assert (Ecap : g_cap g1 = g_cap g) by (rewrite F; reflexivity).
      assert (Edbg : g_dbg g1 = g_dbg g) by (rewrite F; reflexivity).
      rewrite Ht in A1. apply free_transition_some in A1. destruct A1 as (X1 & X2 & X3).
      destruct (descriptor_at g1 b M) as (d & D1 & D2 & D3 & D4); [lia|lia|].
      rewrite D1 in H.
      assert (Ed : b_st d = s').
      { destruct A2 as (A2 & _). destruct (A2 b) as (_ & Y); [unfold in_range; lia|]. congruence. }
      assert (Eattr : ms_attrs (b_st d) = ms_attrs (b_st x)) by (rewrite Ed, X3; reflexivity).
      rewrite Eattr in H. set (na := N.lor MEMORY_RP (N.land (ms_attrs (b_st x)) CACHE_ATTRIBUTE_MASK)) in *.
      destruct (set_gcd_memory_attributes g1 b l na) as [r2 g2] eqn:E2.
      assert (HU : forall a, in_range b l a -> state_at (g_blocks g1) a = Some s').
      { intros a Ha. destruct A2 as (A2 & _). now apply A2. }
      pose proof (set_gcd_attrs_uniform g1 b l na s' r2 g2 M) as Q. rewrite Emax in Q.
      specialize (Q Hmax Hb Hl L0 Le HU E2).
      assert (Reason : attribute_transition s' na = None \/ g_cap g1 < clen (g_blocks g1) + 2 -> free_reason g (b_st x)).
      { intros [Z|Z].
        - left. fold na. intros Y. assert (W : attribute_transition s' na <> None).
          { assert (W : attribute_transition s' na =
                    Some (mkMs (ms_alloc s') (ms_type s') (ms_caps s') na (ms_image s') (ms_device s'))).
            { apply attribute_transition_some. rewrite X3; cbn. auto. }
            congruence. }
          contradiction.
        - right. rewrite Ecap in Z. lia. }
      assert (FN : attribute_transition s' na = None \/ g_cap g1 < clen (g_blocks g1) + 2 ->
                   freed_not_reset g (free_op p b l) g1).
      { intros Z. exists b, l, (b_st x). do 4 (split; [auto; fail|]). split; [now apply Reason|].
        split; [exact F|]. split; [exact M|]. destruct p; cbn [free_op]; rewrite X3 in A2; exact A2. }
      destruct r2 as [[]|e|].
      * cbn [lift_unit] in H. inversion H; subst. destruct Q as (Q & _). cbn [one_step] in Q.
        destruct Q as (F2 & M2 & _ & _ & s1 & s2 & Q1 & Q2).
        destruct (range_changed_trans _ _ _ _ _ _ _ _ _ L0 A2 Q2) as (Q3 & Q4). subst s1.
        cbn in Q1. apply attribute_transition_some in Q1. destruct Q1 as (Q5 & Q6 & ->).
        cbn [ms_alloc ms_type ms_caps ms_image ms_device] in *.
        unfold step_post. destruct p; cbn [free_op] in *; right;
        (split; [eapply same_frame_trans; eauto|]; split; [exact M2|]);
        exists b, l, (b_st x); eexists; (split; [reflexivity|]); (split; [exact L0|]); (split; [exact Le|]);
        (split; [cbn [call_effect]; split; [exact X1|]; split; [exact X2|]; split; [exact Q6|reflexivity]|exact Q4]).
      * destruct Q as (-> & Qd & Qr). rewrite Edbg in Qd. unfold debug_fail in H. rewrite Qd in H.
        cbn [lift_unit] in H. inversion H; subst. cbn [step_post]. right. auto.
      * destruct Q as (Qd & _). rewrite Edbg in Qd. cbn [lift_unit] in H. inversion H; subst. exact Qd.
    + destruct (gsst_err _ _ _ _ _ _ _ P) as (-> & Hne).
      destruct e; cbn [lift_unit] in H; inversion H; subst; cbn; auto; congruence.
    + cbn [lift_unit] in H. inversion H; subst. destruct P as (_ & P). cbn in P. cbn. tauto.
  - inversion H; subst. cbn. auto.
  - inversion H; subst. eapply check_range_panic; eauto.
Qed.
