(** Each call on one allocator keeps its invariant. *)
From Coq Require Import Permutation.
From Verif Require Import Base.Prelude Align.Model Align.Proofs Align.Main Gcd.Blocks Gcd.Model Gcd.Spec Gcd.BlockProofs Gcd.Proofs Gcd.AllocProofs Gcd.Main Gcd.Hist Gcd.Complete Gcd.Props Alloc.Model Alloc.Spec Alloc.Pool Alloc.Pages.
Local Open Scope N_scope.

Definition reach (dbg : bool) (bits : N) (g : gcd) : Prop :=
  (exists nodesz prio ops, reachable dbg nodesz bits prio ops g) /\ g_blocks g <> [].

Lemma reach_map : forall dbg bits g, reach dbg bits g -> map_ok g /\ 0 < g_max g < two64 /\ g_max g = 2 ^ bits /\ g_dbg g = dbg.
Proof.
  intros dbg bits g ((n & p & ops & H) & B). destruct (reachable_inv _ _ _ _ _ _ H) as ((M & [I|(I & _)]) & E & D & _); [|contradiction]. auto.
Qed.

Lemma reach_step : forall dbg bits g o r g', reach dbg bits g -> op_wf o -> gcd_step g o = (r, g') -> r <> Panic -> reach dbg bits g'.
Proof.
  intros dbg bits g o r g' R W S P. pose proof (reach_map _ _ _ R) as (M & Mx & E & _). destruct R as ((n & p & ops & (R1 & R2 & R3)) & B).
  split.
  - exists n, p, (ops ++ [o]). split; [exact R1|]. split; [apply Forall_app; auto|]. rewrite run_app, R3. cbn [gcd_run]. rewrite S.
    destruct r; [reflexivity|reflexivity|contradiction].
  - destruct (step_frame g o r g' (conj Mx (or_introl M)) W S P) as (_ & E' & _ & _ & M'). destruct (M' M) as (T & _).
    intros EB. rewrite EB in T. cbn in T. rewrite E' in T. lia.
Qed.

(** ** The map's answers *)
Lemma alloc_err : forall dbg bits g at_ ty sh len h e g', reach dbg bits g -> op_wf (OpAllocate at_ ty sh len h None) ->
  gcd_step g (OpAllocate at_ ty sh len h None) = (Err e, g') -> g' = g.
Proof.
  intros dbg bits g at_ ty sh len h e g' R W S. destruct R as ((n & p & ops & R) & _).
  destruct (memory_call_failure_atomic_partial _ _ _ _ _ _ _ _ _ R W S) as [(H & _)|[H|(H & _)]]; [discriminate|exact H|discriminate].
Qed.

Lemma alloc_took : forall dbg bits g at_ ty sh len h v g', reach dbg bits g -> op_wf (OpAllocate at_ ty sh len h None) ->
  gcd_step g (OpAllocate at_ ty sh len h None) = (Ok v, g') ->
  aligned sh v /\ nonzero_result at_ v /\ within_bound at_ v len /\
  exists k, took bits g g' h k v len /\ match at_ with AtAddress _ => True | _ => k = 0 \/ k = h end.
Proof.
  intros dbg bits g at_ ty sh len h v g' R W S. destruct R as ((n & p & ops & R) & _).
  destruct (allocation_is_safe _ _ _ _ _ _ _ _ _ _ _ _ _ _ R W S) as (A & B & C & D & E & _ & s & F1 & F2 & F3 & F4 & F5 & F6 & F7 & F8).
  split; [exact C|]. split; [exact E|]. split; [exact D|]. exists (ms_image s). split; [|exact F6]. split; [exact A|]. split; [exact B|]. split.
  - intros x Hx. destruct (F7 x Hx) as (G1 & G2). apply tag_of in G1, G2. rewrite F1 in G1. auto.
  - intros x Hx. apply tag_eq. auto.
Qed.

Lemma free_gave : forall dbg bits g (res : bool) b len v g' h, reach dbg bits g -> word b -> word len ->
  gcd_step g (if res then OpFreePreserving b len else OpFree b len) = (Ok v, g') ->
  (forall x, in_range b len x -> tag g x = Some (true, h)) -> gave g g' h res b len.
Proof.
  intros dbg bits g res b len v g' h R W1 W2 S HT. pose proof (reach_map _ _ _ R) as (_ & _ & _ & _). destruct R as ((n & p & ops & R) & B).
  assert (G : (g_blocks g' = g_blocks g) \/ exists s, 0 < len /\
    range_changed (g_blocks g) (g_blocks g') b len s
      (mkMs false (ms_type s) (ms_caps s) (N.lor MEMORY_RP (N.land (ms_attrs s) CACHE_ATTRIBUTE_MASK)) (if res then ms_image s else 0) 0)).
  { assert (W : op_wf (if res then OpFreePreserving b len else OpFree b len)) by (destruct res; split; assumption).
    pose proof (memory_call_exact_effect _ _ _ _ _ _ _ _ _ R B W S) as P. destruct res; cbn [is_free] in P;
    (destruct P as [(_ & _ & P)|(b0 & l0 & s & s' & C1 & C2 & _ & C3 & C4)]; [left; exact P|right; exists s]);
    cbn [call_range] in C1; inversion C1; subst b0 l0; cbn [call_effect] in C3; destruct C3 as (_ & _ & _ & ->); auto. }
  destruct G as [G|(s & L & G1 & G2)]; [left; intros x; apply tag_eq; now rewrite G|]. right. split.
  - intros x Hx. destruct (G1 x Hx) as (S1 & S2). apply tag_of in S1, S2. pose proof (HT x Hx) as T. rewrite T in S1. inversion S1.
    split; [congruence|]. rewrite S2. destruct res; reflexivity.
  - intros x Hx. apply tag_eq. auto.
Qed.

(** After a free that failed half way the memory belongs to its owner or to nobody. *)
Lemma free_err_owner : forall dbg bits g (res : bool) b len e g' h, reach dbg bits g -> word b -> word len ->
  gcd_step g (if res then OpFreePreserving b len else OpFree b len) = (Err e, g') ->
  tag g b = Some (true, h) -> exists f k, tag g' b = Some (f, k) /\ (k = h \/ k = 0).
Proof.
  intros dbg bits g res b len e g' h R W1 W2 S HT. pose proof (reach_map _ _ _ R) as (M & Mx & _ & _).
  assert (W : op_wf (if res then OpFreePreserving b len else OpFree b len)) by (destruct res; split; assumption).
  pose proof (gcd_step_map g _ (Err e) g' M Mx W S) as P. cbn [step_post] in P. destruct P as [->|(_ & _ & P)]; [eauto|].
  destruct P as (b0 & l0 & s & C1 & C2 & C3 & C4 & _ & _ & _ & G1 & G2).
  assert (E : b0 = b /\ l0 = len) by (destruct res; cbn [call_range] in C1; inversion C1; auto). destruct E; subst.
  destruct (G1 b) as (S1 & S2); [unfold in_range; lia|]. apply tag_of in S1, S2. rewrite HT in S1. inversion S1 as [[X1 X2]].
  rewrite S2. cbn [ms_alloc ms_image]. destruct res; eauto.
Qed.

Lemma descriptor_tag : forall dbg bits g x, reach dbg bits g ->
  exists d, get_memory_descriptor_for_address g x = Ok d /\
    (x < 2 ^ bits -> tag g x = Some (ms_alloc (b_st d), ms_image (b_st d))).
Proof.
  intros dbg bits g x R. pose proof (reach_map _ _ _ R) as (M & Mx & E & _).
  destruct (find_block g x M ltac:(lia)) as (pre & b & post & B & C & L & B1 & B2). exists b. unfold get_memory_descriptor_for_address.
  destruct (N.eqb_spec (g_max g) 0); [lia|]. rewrite C, L. split; [reflexivity|]. intros Hx. apply tag_of.
  destruct M as (T & _). rewrite B in T |- *. eapply state_at_mid; [exact T|]. rewrite E in B2. auto.
Qed.

(** ** Sizes *)
Lemma gran_pages : forall dbg k, 12 <= k -> k < 64 -> size_to_pages dbg (2 ^ k) = Ok (2 ^ (k - 12)) /\ 2 ^ k = 2 ^ (k - 12) * PAGE.
Proof.
  intros dbg k H1 H2. assert (E : 2 ^ k = 2 ^ (k - 12) * PAGE) by (change PAGE with (2 ^ 12); rewrite <- N.pow_add_r; f_equal; lia).
  split; [|exact E]. rewrite size_to_pages_ok by (apply N.pow_le_mono_r; lia).
  rewrite E. rewrite N.div_add_l by discriminate. rewrite (N.div_small 4095) by reflexivity. f_equal. lia.
Qed.

Lemma shift_ok : forall al sh, page_shift al = Ok sh -> al < two64 -> al = 2 ^ sh /\ 12 <= sh /\ sh < 64.
Proof.
  intros al sh H W. unfold page_shift in H. destruct (is_power_of_two al) eqn:E; cbn [negb orb] in H; [|discriminate].
  destruct (N.ltb_spec (N.log2 al) 12); [discriminate|]. inversion H; subst. apply is_power_of_two_spec in E. destruct E as (k & ->).
  rewrite N.log2_pow2 in * by lia. split; [reflexivity|]. split; [assumption|]. change two64 with (2 ^ 64) in W.
  apply N.pow_lt_mono_r_iff in W; lia.
Qed.

Lemma aligned_shift : forall sh v, sh < 64 -> aligned sh v -> v mod 2 ^ sh = 0.
Proof. intros sh v H A. unfold aligned, alignment_of in A. rewrite (N.mod_small sh 64) in A by exact H. exact A. Qed.

Lemma mod_mod_mult : forall x a b, 0 < a -> 0 < b -> x mod a = 0 -> (x mod (a * b)) mod a = 0.
Proof.
  intros x a b Ha Hb H. apply N.mod_divide in H; [|lia]. apply N.mod_divide; [lia|].
  rewrite N.mod_eq by lia. apply N.divide_sub_r; [exact H|]. exists (b * (x / (a * b))). nia.
Qed.

Lemma pages_to_size_gran : forall dbg k n len, 12 <= k -> k < 64 -> n mod 2 ^ (k - 12) = 0 -> pages_to_size dbg n = Ok len ->
  len mod 2 ^ k = 0 /\ len < two64.
Proof.
  intros dbg k n len H1 H2 Hn H. destruct (gran_pages dbg k H1 H2) as (_ & E).
  assert (D : (n * PAGE) mod 2 ^ k = 0).
  { rewrite E. apply N.mod_divide; [assert (2 ^ (k - 12) <> 0) by (apply N.pow_nonzero; lia); unfold PAGE; lia|].
    apply N.mod_divide in Hn; [|apply N.pow_nonzero; lia]. destruct Hn as (q & ->). exists q. now rewrite N.mul_assoc. }
  unfold pages_to_size, umul in H. destruct (N.ltb_spec (n * PAGE) two64).
  - inversion H; subst. auto.
  - destruct dbg; inversion H; subst. split; [|apply N.mod_lt; discriminate].
    replace two64 with (2 ^ k * 2 ^ (64 - k)) by (change two64 with (2 ^ 64); rewrite <- N.pow_add_r; f_equal; lia).
    apply mod_mod_mult; auto; apply pow2_pos.
Qed.

Lemma align_up_mult : forall x k n, x < 2 ^ 64 -> k < 64 -> align_up 64 x (2 ^ k) = Ok n -> n mod 2 ^ k = 0 /\ x <= n.
Proof.
  intros x k n Hx Hk H. pose proof (align_up_main 64 x (2 ^ k) Hx ltac:(apply N.pow_lt_mono_r; lia)) as M. rewrite H in M. tauto.
Qed.

(** The run is a multiple of the granularity, hence holds a heap. *)
Lemma multiple_ge : forall len k, 0 < len -> len mod 2 ^ k = 0 -> 2 ^ k <= len.
Proof.
  intros len k H1 H2. apply N.mod_divide in H2; [|apply N.pow_nonzero; lia]. destruct H2 as (q & ->).
  destruct (N.eq_dec q 0) as [->|Hq]; [lia|]. pose proof (pow2_pos k). nia.
Qed.

Lemma same_pool_refl : forall a b, al_lists b = al_lists a -> al_heaps b = al_heaps a -> forall B, pinv a B -> pinv b B.
Proof. intros. eapply pinv_ext; eauto. Qed.

(** What a call on an allocator leaves alone. *)
Definition same_id (a a' : alloc) : Prop := al_type a' = al_type a /\ al_handle a' = al_handle a /\ al_gran a' = al_gran a.
Lemma same_id_refl : forall a, same_id a a.
Proof. repeat split. Qed.

Lemma fsb_same_pages : forall a a' : alloc, a' = with_lists (with_heaps a (al_heaps a')) (al_lists a') ->
  same_pages a a' /\ same_id a a' /\ al_pages a' = al_pages a /\ al_range a' = al_range a.
Proof. intros a a' ->. repeat split. Qed.

Lemma rinv_same : forall bits g a a' R, same_pages a a' -> al_pages a' = al_pages a -> rinv bits g a R -> rinv bits g a' R.
Proof. intros bits g a a' R S P (H1 & H2). split; [eapply rinv0_same; eauto|congruence]. Qed.

(** ** Allocating from the pool *)
Definition layout (size align : N) : Prop := power_of_two align /\ size <= ISIZE_MAX.

Lemma allocate_ok : forall dbg bits ch g a size align r g' a' H B,
  reach dbg bits g -> rinv bits g a (map region (al_heaps a) ++ H) -> pinv a B -> al_handle a <> 0 -> word (al_handle a) ->
  layout size align -> allocate dbg ch g a size align = (r, g', a') -> r <> Panic ->
  same_id a a' /\ reach dbg bits g' /\ rinv bits g' a' (map region (al_heaps a') ++ H) /\
  (g' = g \/ exists k v len, took bits g g' (al_handle a) k v len /\ (k = 0 \/ k = al_handle a)) /\
  match r with Ok p => pinv a' ((p, size, align) :: B) | _ => pinv a' B end.
Proof.
  intros dbg bits ch g a size align r g' a' H B R I P H0 HW (Ly1 & Ly2) E NP. unfold allocate in E.
  destruct (fsb_alloc (ch 0%nat) a size align) as [p a1|need] eqn:E1.
  { inversion E; subst. destruct (fsb_alloc_ok _ _ _ _ _ _ _ E1 Ly1 Ly2 P) as (X1 & X2 & X3).
    destruct (fsb_same_pages _ _ X3) as (Y1 & Y2 & Y3 & _). split; [exact Y2|]. split; [exact R|].
    split; [rewrite X2; eapply rinv_same; eauto|]. split; [left; reflexivity|exact X1]. }
  assert (SAME : forall x : res efi_error N, (x, g, a) = (r, g', a') -> x <> Panic -> match x with Ok _ => False | _ => True end ->
    same_id a a' /\ reach dbg bits g' /\ rinv bits g' a' (map region (al_heaps a') ++ H) /\
    (g' = g \/ exists k v len, took bits g g' (al_handle a) k v len /\ (k = 0 \/ k = al_handle a)) /\
    match r with Ok p => pinv a' ((p, size, align) :: B) | _ => pinv a' B end).
  { intros x Ex Nx Mx. inversion Ex; subst. split; [apply same_id_refl|]. split; [exact R|]. split; [exact I|]. split; [auto|].
    destruct r; [contradiction|exact P|contradiction]. }
  destruct (expansion_size dbg a need) as [len|e|] eqn:E2; [|apply (SAME _ E); [discriminate|exact Logic.I]|inversion E; subst; contradiction].
  destruct (page_shift (al_gran a)) as [sh|e|] eqn:E3.
  2: { destruct dbg; [inversion E; subst; contradiction|]. apply (SAME _ E); [discriminate|exact Logic.I]. }
  2: { destruct dbg; [inversion E; subst; contradiction|]. apply (SAME _ E); [discriminate|exact Logic.I]. }
  destruct (r_gran _ _ _ _ (proj1 I)) as (k & Ek & Hk1 & Hk2).
  assert (G64 : al_gran a < two64) by (rewrite Ek; change two64 with (2 ^ 64); apply N.pow_lt_mono_r; lia).
  destruct (shift_ok _ _ E3 G64) as (Esh & _ & Hsh).
  assert (LG : len mod al_gran a = 0 /\ len < two64).
  { unfold expansion_size in E2. destruct (size_to_pages dbg (N.max need MIN_EXPANSION)) as [p0| |]; [|discriminate|discriminate].
    cbn [bind] in E2. rewrite Ek in E2 |- *. destruct (gran_pages dbg k Hk1 Hk2) as (Gp & _). rewrite Gp in E2. cbn [bind] in E2.
    destruct (align_up 64 p0 (2 ^ (k - 12))) as [n| |] eqn:EA; [|destruct dbg; discriminate|destruct dbg; discriminate].
    cbn [bind] in E2. eapply pages_to_size_gran; eauto.
    rewrite align_up_eq in EA. destruct (N.eqb_spec (p0 mod 2 ^ (k - 12)) 0); [inversion EA; subst; assumption|].
    destruct (_ <? _); [|discriminate]. inversion EA; subst. pose proof (pow2_pos (k - 12)).
    replace (p0 / 2 ^ (k - 12) * 2 ^ (k - 12) + 2 ^ (k - 12)) with ((p0 / 2 ^ (k - 12) + 1) * 2 ^ (k - 12)) by lia.
    apply N.mod_mul. lia. }
  destruct LG as (LG & LW).
  assert (W : op_wf (OpAllocate (TopDown None) SystemMemory sh len (al_handle a) None)).
  { cbn [op_wf]. split; [unfold word; change two64 with 18446744073709551616; lia|]. split; [exact LW|]. auto. }
  destruct (gcd_step g _) as [rg g1] eqn:E4. destruct rg as [v|e|].
  2: { pose proof (alloc_err _ _ _ _ _ _ _ _ _ _ R W E4) as ->. apply (SAME _ E); [discriminate|exact Logic.I]. }
  2: { inversion E; subst. contradiction. }
  destruct (alloc_took _ _ _ _ _ _ _ _ _ _ R W E4) as (A1 & A2 & _ & k0 & A3 & A4). cbn [nonzero_result] in A2.
  pose proof (reach_step _ _ _ _ _ _ R W E4 ltac:(discriminate)) as R1.
  apply (aligned_shift _ _ Hsh) in A1. rewrite <- Esh in A1.
  destruct (N.eqb_spec v 0); [lia|]. pose proof A3 as (L0 & _).
  assert (LN : NODE < len).
  { rewrite Ek in LG. pose proof (multiple_ge _ _ L0 LG). assert (2 ^ 12 <= 2 ^ k) by (apply N.pow_le_mono_r; lia).
    change (2 ^ 12) with 4096 in *. unfold NODE. lia. }
  unfold expand in E. destruct (N.leb_spec len NODE); [lia|].
  assert (I1 : rinv0 bits g (with_heaps a (Heap v len [] :: al_heaps a)) (map region (al_heaps a) ++ H)).
  { eapply rinv0_same; [|exact (proj1 I)]. repeat split. }
  destruct (rinv_take bits dbg g g1 _ _ k0 v len I1 A3 A2 A1 LG) as (a1 & N1 & N2 & N3 & N4 & N5 & N6 & N7 & N8).
  rewrite N1 in E. cbn [with_heaps al_type al_handle al_gran al_lists al_heaps al_range] in *.
  assert (P1 : pinv a1 B) by (eapply (pinv_expand a v len B a1 P); eauto).
  assert (TK : g1 = g \/ exists k v len, took bits g g1 (al_handle a) k v len /\ (k = 0 \/ k = al_handle a)) by (right; eauto).
  destruct (fsb_alloc (ch 1%nat) a1 size align) as [p a2|need2] eqn:E5.
  - inversion E; subst. destruct (fsb_alloc_ok _ _ _ _ _ _ _ E5 Ly1 Ly2 P1) as (X1 & X2 & X3).
    destruct (fsb_same_pages _ _ X3) as (Y1 & (Z1 & Z2 & Z3) & Y3 & _). split; [split; [congruence|split; congruence]|]. split; [exact R1|].
    split; [rewrite X2, N8; eapply rinv_same; eauto|]. split; [exact TK|exact X1].
  - destruct dbg; inversion E; subst; [contradiction|]. split; [split; [congruence|split; congruence]|]. split; [exact R1|].
    split; [rewrite N8; exact N2|]. split; [exact TK|exact P1].
Qed.

(** ** Pages *)
Lemma rinv_leak : forall bits g g' a R k v len, rinv bits g a R -> took bits g g' (al_handle a) k v len -> rinv bits g' a R.
Proof.
  intros bits g g' a R k v len (I & E) (L0 & Lb & T1 & T2). split; [|exact E].
  pose proof (r_owned _ _ _ _ I) as r_owned0. pose proof (r_resowner _ _ _ _ I) as r_resowner0. pose proof (r_free _ _ _ _ I) as r_free0.
  constructor; try apply I.
  - intros r x Hr Hx. pose proof (r_owned0 r x Hr Hx) as O. destruct (in_range_dec v len x) as [Hi|Hi]; [now apply T1|].
    rewrite T2 by exact Hi. exact O.
  - intros x Hx. destruct (in_range_dec v len x) as [Hi|Hi]; [exists true; now apply T1|]. rewrite T2 by exact Hi. auto.
  - intros x Hx. destruct (in_range_dec v len x) as [Hi|Hi]; [destruct (T1 x Hi); congruence|]. rewrite T2 in Hx by exact Hi. auto.
Qed.

Lemma round_up_pages : forall k pages n, 12 <= k -> k < 64 -> word pages -> align_up 64 pages (2 ^ (k - 12)) = Ok n ->
  n * PAGE = round_up (pages * 4096) (2 ^ k).
Proof.
  intros k pages n Hk1 Hk2 WP EA.
  pose proof (align_up_main 64 pages (2 ^ (k - 12)) WP ltac:(apply N.pow_lt_mono_r; lia)) as M. rewrite EA in M.
  destruct M as (_ & _ & AM1 & AM2 & AM3). destruct (gran_pages true k Hk1 Hk2) as (_ & Gm).
  unfold round_up. rewrite Gm. unfold PAGE in *. pose proof (pow2_pos (k - 12)) as Hq. set (q := 2 ^ (k - 12)) in *.
  apply N.mod_divide in AM1; [|lia]. destruct AM1 as (c & ->).
  assert (CE : (pages * 4096 + q * 4096 - 1) / (q * 4096) = c).
  { assert (LB : c * q < pages + q).
      { destruct (N.lt_ge_cases (c * q) (pages + q)); [assumption|]. exfalso. destruct (N.eq_dec c 0) as [->|]; [lia|].
        specialize (AM3 ((c - 1) * q)). rewrite N.mod_mul in AM3 by lia. specialize (AM3 eq_refl).
        rewrite N.mul_sub_distr_r in AM3. lia. }
    symmetry. apply (N.div_unique _ _ c (pages * 4096 + q * 4096 - 1 - (q * 4096) * c)); lia. }
  rewrite CE. lia.
Qed.

Lemma allocate_pages_ok : forall dbg bits g a at_ pages alignment r g' a' R,
  reach dbg bits g -> rinv bits g a R -> al_handle a <> 0 -> word (al_handle a) -> word pages -> word alignment ->
  match at_ with AtAddress x | BottomUp (Some x) | TopDown (Some x) => word x | _ => True end ->
  allocate_pages dbg g a at_ pages alignment = (r, g', a') -> r <> Panic ->
  same_id a a' /\ reach dbg bits g' /\ al_lists a' = al_lists a /\ al_heaps a' = al_heaps a /\
  (g' = g \/ exists k v len, took bits g g' (al_handle a) k v len /\
     match at_ with AtAddress x => v = x | _ => k = 0 \/ k = al_handle a end) /\
  match r with
  | Ok (base, len) => rinv bits g' a' ((base, len) :: R) /\
      base mod al_gran a = 0 /\ len mod al_gran a = 0 /\ (power_of_two alignment -> base mod alignment = 0) /\
      within_bound at_ base len /\
      (round_up (pages * 4096) (al_gran a) < two64 -> len = round_up (pages * 4096) (al_gran a)) /\
      (dbg = true -> pages * 4096 <= len) /\
      exists k, took bits g g' (al_handle a) k base len
  | _ => rinv bits g' a' R
  end.
Proof.
  intros dbg bits g a at_ pages alignment r g' a' R RC I H0 HW WP WA WT E NP. unfold allocate_pages in E. cbv zeta in E.
  destruct (r_gran _ _ _ _ (proj1 I)) as (k & Ek & Hk1 & Hk2).
  set (al := N.max (al_gran a) alignment) in *.
  assert (AL64 : al < two64).
  { unfold al. rewrite Ek. change two64 with (2 ^ 64) in *. assert (2 ^ k < 2 ^ 64) by (apply N.pow_lt_mono_r; lia). unfold word in WA. change two64 with (2 ^ 64) in WA. lia. }
  assert (SAME : forall x : res efi_error (N * N), (x, g, a) = (r, g', a') -> x <> Panic -> match x with Ok _ => False | _ => True end ->
    same_id a a' /\ reach dbg bits g' /\ al_lists a' = al_lists a /\ al_heaps a' = al_heaps a /\
    (g' = g \/ exists k v len, took bits g g' (al_handle a) k v len /\
       match at_ with AtAddress x => v = x | _ => k = 0 \/ k = al_handle a end) /\
    match r with Ok _ => False | _ => rinv bits g' a' R end).
  { intros x Ex Nx Mx. inversion Ex; subst. split; [apply same_id_refl|]. split; [exact RC|]. split; [reflexivity|]. split; [reflexivity|]. split; [auto|].
    destruct r; [contradiction|exact I|contradiction]. }
  assert (SAME' : forall e : efi_error, (Err e, g, a) = (r, g', a') ->
    same_id a a' /\ reach dbg bits g' /\ al_lists a' = al_lists a /\ al_heaps a' = al_heaps a /\
    (g' = g \/ exists k v len, took bits g g' (al_handle a) k v len /\
       match at_ with AtAddress x => v = x | _ => k = 0 \/ k = al_handle a end) /\
    match r with
    | Ok (base, len) => rinv bits g' a' ((base, len) :: R) /\
      base mod al_gran a = 0 /\ len mod al_gran a = 0 /\ (power_of_two alignment -> base mod alignment = 0) /\
      within_bound at_ base len /\
      (round_up (pages * 4096) (al_gran a) < two64 -> len = round_up (pages * 4096) (al_gran a)) /\
      (dbg = true -> pages * 4096 <= len) /\
      exists k, took bits g g' (al_handle a) k base len
    | _ => rinv bits g' a' R end).
  { intros e Ex. destruct (SAME _ Ex ltac:(discriminate) Logic.I) as (S1 & S2 & S3 & S4 & S5 & S6). destruct r; [contradiction| |]; auto 10. }
  destruct (gran_pages dbg k Hk1 Hk2) as (Gp & Gm). rewrite Ek in E. rewrite Gp in E. cbn [bind] in E.
  destruct (align_up 64 pages (2 ^ (k - 12))) as [n|e|] eqn:EA; cbn [bind] in E; [|exact (SAME' _ E)|inversion E; subst; contradiction].
  assert (AM : n mod 2 ^ (k - 12) = 0 /\ pages <= n /\ (forall m, m mod 2 ^ (k - 12) = 0 -> pages <= m -> n <= m)).
  { pose proof (align_up_main 64 pages (2 ^ (k - 12)) WP ltac:(apply N.pow_lt_mono_r; lia)) as M. rewrite EA in M. tauto. }
  destruct AM as (AM1 & AM2 & AM3).
  destruct (page_shift al) as [sh|e|] eqn:ES; cbn [bind] in E; [|exact (SAME' _ E)|inversion E; subst; contradiction].
  destruct (shift_ok _ _ ES AL64) as (Eal & _ & Hsh).
  destruct (match at_ with AtAddress x => if x mod al =? 0 then Ok tt else Err InvalidParameter | _ => Ok tt end) as [[]|e|] eqn:EX;
    cbn [bind] in E; [|exact (SAME' _ E)|inversion E; subst; contradiction].
  destruct (pages_to_size dbg n) as [len|e|] eqn:EL; cbn [bind] in E; [|exact (SAME' _ E)|inversion E; subst; contradiction].
  destruct (pages_to_size_gran _ _ _ _ Hk1 Hk2 AM1 EL) as (LG & LW).
  assert (W : op_wf (OpAllocate at_ SystemMemory sh len (al_handle a) None)).
  { cbn [op_wf]. split; [unfold word; change two64 with 18446744073709551616; lia|]. split; [exact LW|]. split; [exact HW|].
    destruct at_ as [[x|]|[x|]|x]; exact WT. }
  destruct (gcd_step g _) as [rg g1] eqn:E4. destruct rg as [v|e|].
  2: { pose proof (alloc_err _ _ _ _ _ _ _ _ _ _ RC W E4) as ->. exact (SAME' _ E). }
  2: { inversion E; subst. contradiction. }
  destruct (alloc_took _ _ _ _ _ _ _ _ _ _ RC W E4) as (A1 & A2 & A5 & k0 & A3 & A4).
  pose proof (reach_step _ _ _ _ _ _ RC W E4 ltac:(discriminate)) as R1.
  apply (aligned_shift _ _ Hsh) in A1. rewrite <- Eal in A1.
  assert (TK : g1 = g \/ exists k v len, took bits g g1 (al_handle a) k v len /\
     match at_ with AtAddress x => v = x | _ => k = 0 \/ k = al_handle a end).
  { right. exists k0, v, len. split; [exact A3|]. destruct at_ as [[x|]|[x|]|x]; auto. }
  destruct (N.eqb_spec v 0) as [V0|V0].
  { inversion E; subst. split; [apply same_id_refl|]. split; [exact R1|]. split; [reflexivity|]. split; [reflexivity|]. split; [exact TK|].
    eapply rinv_leak; eauto. }
  assert (VG : v mod al_gran a = 0).
  { rewrite Ek. apply (pow2_divides (2 ^ k) al v); [exists k; reflexivity|rewrite Eal; eauto| |exact A1]. unfold al. rewrite Ek. apply N.le_max_l. }
  rewrite <- Ek in LG.
  destruct (rinv_take bits dbg g g1 a R k0 v len (proj1 I) A3 ltac:(clear - V0; lia) VG LG) as (a1 & N1 & N2 & N3 & N4 & N5 & N6 & N7 & N8).
  rewrite N1 in E. inversion E; subst r g' a'. split; [split; auto|]. split; [exact R1|]. split; [exact N7|]. split; [exact N8|]. split; [exact TK|].
  split; [exact N2|]. split; [exact VG|]. split; [exact LG|]. split; [|split; [exact A5|split; [|split; [|eauto]]]].
  - intros Hp. apply (pow2_divides alignment al v Hp); [rewrite Eal; eauto|unfold al; apply N.le_max_r|exact A1].
  - intros Hr. assert (RN : n * PAGE = round_up (pages * 4096) (al_gran a)).
    { rewrite Ek. eapply round_up_pages; eauto. }
    rewrite <- RN in Hr |- *. unfold pages_to_size, umul in EL. assert (EB : n * PAGE <? two64 = true) by (now apply N.ltb_lt). rewrite EB in EL. now inversion EL.
  - intros ->. unfold pages_to_size, umul in EL. destruct (n * PAGE <? two64); [|discriminate]. inversion EL; subst. clear - AM2. unfold PAGE. lia.
Qed.

(** An allocator that does not own the address refuses. *)
Lemma free_pages_other : forall dbg bits g a base pages f k, reach dbg bits g ->
  (exists q, al_gran a = 2 ^ q /\ 12 <= q /\ q < 64) -> word pages ->
  base < 2 ^ bits -> tag g base = Some (f, k) -> k <> al_handle a ->
  exists e, free_pages dbg g a base pages = (Err e, g, a).
Proof.
  intros dbg bits g a base pages f k RC (kk & Ek & Hk1 & Hk2) WP BB T K. unfold free_pages. rewrite Ek. destruct (gran_pages dbg kk Hk1 Hk2) as (Gp & _). rewrite Gp. cbn [bind].
  pose proof (align_up_main 64 pages (2 ^ (kk - 12)) WP ltac:(apply N.pow_lt_mono_r; lia)) as M.
  destruct (align_up 64 pages (2 ^ (kk - 12))) as [n|e|]; [|eauto|contradiction].
  destruct (negb (base mod 2 ^ kk =? 0)); [eauto|].
  destruct (descriptor_tag _ _ _ base RC) as (d & D1 & D2). rewrite D1. rewrite D2 in T by exact BB. inversion T; subst.
  destruct (N.eqb_spec (ms_image (b_st d)) (al_handle a)); [contradiction|]. cbn [negb]. eauto.
Qed.

(** The owner frees one of its runs. *)
Lemma free_pages_own : forall dbg bits g a base pages len R r g' a', reach dbg bits g -> rinv bits g a ((base, len) :: R) ->
  al_handle a <> 0 -> word pages -> len = round_up (pages * 4096) (al_gran a) ->
  free_pages dbg g a base pages = (r, g', a') -> r <> Panic ->
  same_id a a' /\ al_lists a' = al_lists a /\ al_heaps a' = al_heaps a /\ reach dbg bits g' /\
  match r with
  | Ok _ => gave g g' (al_handle a) (in_reserved a base) base len /\ rinv bits g' a' R
  | _ => a' = a /\ exists f k, tag g' base = Some (f, k) /\ (k = al_handle a \/ k = 0)
  end.
Proof.
  intros dbg bits g a base pages len R r g' a' RC I H0 WP HL E NP. unfold free_pages in E.
  destruct (r_gran _ _ _ _ (proj1 I)) as (kk & Ek & Hk1 & Hk2). pose proof (r_bits _ _ _ _ (proj1 I)) as HB. pose proof (pow_le_64 _ HB) as HB2.
  pose proof (Forall_inv (r_run _ _ _ _ (proj1 I))) as (F1 & F2 & F3 & F4 & F5). cbn [fst snd] in *.
  assert (T : forall x, in_range base len x -> tag g x = Some (true, al_handle a)).
  { intros x Hx. apply (r_owned _ _ _ _ (proj1 I) (base, len) x); [left; reflexivity|exact Hx]. }
  assert (TB : tag g base = Some (true, al_handle a)) by (apply T; unfold in_range; lia).
  rewrite Ek in E. destruct (gran_pages dbg kk Hk1 Hk2) as (Gp & _). rewrite Gp in E. cbn [bind] in E.
  destruct (align_up 64 pages (2 ^ (kk - 12))) as [n|e|] eqn:EA; [|inversion E; subst|inversion E; subst; contradiction].
  2: { split; [apply same_id_refl|]. split; [reflexivity|]. split; [reflexivity|]. split; [exact RC|]. split; [reflexivity|]. eauto. }
  pose proof (round_up_pages _ _ _ Hk1 Hk2 WP EA) as RN. rewrite Ek in HL. rewrite <- HL in RN.
  rewrite <- Ek in E. rewrite F3 in E. cbn [N.eqb negb] in E.
  destruct (descriptor_tag _ _ _ base RC) as (d & D1 & D2). rewrite D1 in E. rewrite D2 in TB by lia. pose proof TB as TB0. injection TB0 as TB1 TB2.
  rewrite TB2, N.eqb_refl in E. cbn [negb] in E.
  unfold pages_to_size, umul in E. rewrite RN in E.
  assert (LW : len < two64) by (change two64 with (2 * 2 ^ 63); clear - F5 HB2; lia).
  assert (BW : base < two64) by (change two64 with (2 * 2 ^ 63); clear - F5 HB2; lia).
  apply N.ltb_lt in LW. rewrite LW in E. apply N.ltb_lt in LW.
  assert (W : op_wf (if in_reserved a base then OpFreePreserving base len else OpFree base len)) by (destruct (in_reserved a base); split; assumption).
  destruct (gcd_step g _) as [rg g1] eqn:E4. destruct rg as [v|e|].
  - pose proof (free_gave _ _ _ _ _ _ _ _ (al_handle a) RC BW LW E4 T) as GV.
    destruct (rinv_give bits dbg g g1 a R base len n (proj1 I) H0 GV RN) as (a1 & N1 & N2 & N3 & N4 & N5 & N6 & N7 & N8).
    rewrite N1 in E. inversion E; subst r g' a'. split; [split; auto|]. split; [exact N7|]. split; [exact N8|].
    split; [eapply reach_step; eauto; discriminate|]. split; [exact GV|exact N2].
  - inversion E; subst r g' a'. split; [apply same_id_refl|]. split; [reflexivity|]. split; [reflexivity|].
    split; [eapply reach_step; eauto; discriminate|]. split; [reflexivity|].
    eapply (free_err_owner dbg bits g _ base len); eauto. apply T. unfold in_range. clear - F1. lia.
  - inversion E; subst. contradiction.
Qed.

Lemma reserve_pages_ok : forall dbg bits g a pages r g' a' R, reach dbg bits g -> rinv bits g a R ->
  al_handle a <> 0 -> word (al_handle a) -> word pages ->
  reserve_pages dbg g a pages = (r, g', a') -> r <> Panic -> (forall e, r = Err e -> g' = g) ->
  same_id a a' /\ al_lists a' = al_lists a /\ al_heaps a' = al_heaps a /\ reach dbg bits g' /\ rinv bits g' a' R /\
  (g' = g \/ exists g1 v len k, took bits g g1 (al_handle a) k v len /\ (k = 0 \/ k = al_handle a) /\ gave g1 g' (al_handle a) true v len).
Proof.
  intros dbg bits g a pages r g' a' R RC I H0 HW WP E NP PE. unfold reserve_pages in E.
  assert (SAME : forall e : efi_error, (Err e, g', a) = (r, g', a') ->
    same_id a a' /\ al_lists a' = al_lists a /\ al_heaps a' = al_heaps a /\ reach dbg bits g' /\ rinv bits g' a' R /\
  (g' = g \/ exists g1 v len k, took bits g g1 (al_handle a) k v len /\ (k = 0 \/ k = al_handle a) /\ gave g1 g' (al_handle a) true v len)).
  { intros e Ex. inversion Ex; subst. rewrite (PE e eq_refl). split; [apply same_id_refl|]. auto 10. }
  destruct (al_range a) as [rg|] eqn:ER; [inversion E; subst; eapply SAME; reflexivity|].
  destruct (r_gran _ _ _ _ (proj1 I)) as (kk & Ek & Hk1 & Hk2). pose proof (r_bits _ _ _ _ (proj1 I)) as HB. pose proof (pow_le_64 _ HB) as HB2.
  rewrite Ek in E. destruct (gran_pages dbg kk Hk1 Hk2) as (Gp & _). rewrite Gp in E. cbn [bind] in E.
  destruct (align_up 64 pages (2 ^ (kk - 12))) as [n|e|] eqn:EA; cbn [bind] in E; [|inversion E; subst; eapply SAME; reflexivity|inversion E; subst; contradiction].
  assert (AM : n mod 2 ^ (kk - 12) = 0) by (eapply align_up_mult; [exact WP| |exact EA]; lia).
  destruct (pages_to_size dbg n) as [len|e|] eqn:EL; cbn [bind] in E; [|inversion E; subst; eapply SAME; reflexivity|inversion E; subst; contradiction].
  destruct (pages_to_size_gran _ _ _ _ Hk1 Hk2 AM EL) as (LG & LW).
  destruct (page_shift (2 ^ kk)) as [sh|e|] eqn:ES; cbn [bind] in E; [|inversion E; subst; eapply SAME; reflexivity|inversion E; subst; contradiction].
  destruct (shift_ok _ _ ES ltac:(change two64 with (2 ^ 64); apply N.pow_lt_mono_r; lia)) as (Esh & _ & Hsh).
  assert (W : op_wf (OpAllocate (TopDown None) SystemMemory sh len (al_handle a) None)).
  { cbn [op_wf]. split; [unfold word; change two64 with 18446744073709551616; lia|]. split; [exact LW|]. auto. }
  destruct (gcd_step g _) as [rg g1] eqn:E4. destruct rg as [v|e|]; [|inversion E; subst; eapply SAME; reflexivity|inversion E; subst; contradiction].
  destruct (alloc_took _ _ _ _ _ _ _ _ _ _ RC W E4) as (A1 & A2 & _ & k0 & A3 & A4).
  pose proof (reach_step _ _ _ _ _ _ RC W E4 ltac:(discriminate)) as R1. pose proof A3 as (L0 & L1 & T1 & T2).
  destruct (v =? 0); [inversion E; subst; contradiction|].
  assert (BW : v < two64) by (change two64 with (2 * 2 ^ 63); clear - L1 L0 HB2; lia).
  destruct (gcd_step g1 _) as [rg g2] eqn:E5. destruct rg as [v2|e|]; [|inversion E; subst; eapply SAME; reflexivity|inversion E; subst; contradiction].
  pose proof (free_gave _ _ g1 true v len v2 g2 (al_handle a) R1 BW LW E5 (fun x Hx => proj2 (T1 x Hx))) as GV.
  destruct (rinv_reserve bits dbg g g1 g2 a R k0 v len (proj1 I) ER H0 A3 GV ltac:(eapply gran_page; eauto)) as (a1 & N1 & N2 & N3 & N4 & N5 & N7 & N8).
  rewrite N1 in E. inversion E; subst r g' a'. split; [split; auto|]. split; [exact N7|]. split; [exact N8|].
  split; [exact (reach_step dbg bits g1 (OpFreePreserving v len) (Ok v2) g2 R1 (conj BW LW) E5 ltac:(discriminate))|]. split; [exact N2|]. right. exists g1, v, len, k0. auto.
Qed.
