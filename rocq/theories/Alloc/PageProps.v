(** C43 (pages): the theorems. *)
From Coq Require Import Permutation.
From Verif Require Import Base.Prelude Align.Model Align.Proofs Align.Main Gcd.Blocks Gcd.Model Gcd.Spec Gcd.BlockProofs Gcd.Proofs Gcd.AllocProofs Gcd.Main Gcd.Hist Gcd.Complete Gcd.Props Alloc.Model Alloc.Spec Alloc.Pool Alloc.Pages Alloc.Calls Alloc.System Alloc.History Alloc.Props.
Local Open Scope N_scope.

(** ** C43: what AllocatePages returns *)
Theorem allocated_pages : forall dbg bits s L ty at_ pages alignment base len s', history dbg bits s L ->
  sys_step dbg s (SPages ty at_ pages alignment) = (Value base len, s') ->
  polite s L (SPages ty at_ pages alignment) (Value base len) s' ->
  exists a, In a (s_als s) /\ al_type a = ty /\
    0 < base /\ base mod al_gran a = 0 /\ len mod al_gran a = 0 /\ (power_of_two alignment -> base mod alignment = 0) /\ within_bound at_ base len /\
    (round_up (pages * 4096) (al_gran a) < 2 ^ 64 -> len = round_up (pages * 4096) (al_gran a)) /\
    (dbg = true -> pages * 4096 <= len) /\
    (forall x, in_range base len x ->
       (exists h, free_of (s_g s) h x /\ match at_ with AtAddress _ => True | _ => h = 0 \/ h = al_handle a end) /\
       allocated_to (s_g s') (al_handle a) x) /\
    (forall x h, ~ in_range base len x ->
       (allocated_to (s_g s') h x <-> allocated_to (s_g s) h x) /\ (free_of (s_g s') h x <-> free_of (s_g s) h x)).
Proof.
  intros dbg bits [g m l] L ty at_ pages alignment base len s' H E (W1 & W2 & PO). apply history_inv in H. cbn [sys_step s_g s_m s_als] in *.
  destruct (rejected ty); [discriminate|].
  destruct (with_alloc l ty _) as [[[r g'] l']|] eqn:EW; [|discriminate].
  destruct (with_alloc_spec _ _ _ _ _ _ EW) as (pre & a & post & a' & -> & ET & EF & ->). cbv beta in EF.
  destruct (allocate_pages dbg g a at_ pages alignment) as [[r0 g0] a0] eqn:EA. injection EF as -> -> ->.
  destruct r as [[v n]|e|]; try discriminate. injection E as -> -> <-.
  assert (Ha : In a (pre ++ a :: post)) by (apply in_mid; auto).
  destruct (i_handle _ _ _ _ H a Ha) as (H0 & HW).
  destruct (allocate_pages_ok dbg bits g a at_ pages alignment (Ok (base, len)) g' a' (runs a L)
             (i_reach _ _ _ _ H) (i_runs _ _ _ _ H a Ha) H0 HW W1 W2) as (S & R & S2 & S3 & TK & RI & C1 & C2 & C3 & C4 & C5 & C6 & k & T); auto; try discriminate.
  { destruct at_ as [[x|]|[x|]|x]; tauto. }
  exists a. split; [exact Ha|]. split; [exact ET|]. pose proof (Forall_inv (r_run _ _ _ _ (proj1 RI))) as (F1 & F2 & _). cbn [fst snd] in *.
  split; [exact F2|]. split; [exact C1|]. split; [exact C2|]. split; [exact C3|]. split; [exact C4|]. split; [exact C5|]. split; [exact C6|].
  pose proof T as (T0 & T1 & T2 & T3). split.
  - intros x Hx. destruct (T2 x Hx) as (X1 & X2). split; [|now apply tag_allocated]. exists k. split.
    + unfold tag in X1. unfold free_of. destruct (state_at (g_blocks g) x) as [st|]; [|discriminate]. cbn [option_map] in X1. injection X1 as Y1 Y2. eauto.
    + destruct TK as [->|(k2 & v2 & len2 & (_ & _ & Z2 & Z3) & KK)]; [congruence|].
      assert (Hx2 : in_range v2 len2 x).
      { destruct (in_range_dec v2 len2 x) as [|Y]; [assumption|]. rewrite (Z3 x Y) in X2. congruence. }
      destruct (Z2 x Hx2) as (Z & _). rewrite X1 in Z. injection Z as <-. destruct at_; auto.
  - intros x h Hx. specialize (T3 x Hx). cbn [s_g]. unfold allocated_to, free_of. unfold tag in T3.
    destruct (state_at (g_blocks g) x) as [s1|], (state_at (g_blocks g') x) as [s2|]; cbn [option_map] in T3; try discriminate.
    + injection T3 as T4 T5. split; split; intros (y & Y1 & Y2 & Y3); injection Y1 as <-; eexists; repeat split; congruence.
    + split; split; intros (y & Y1 & _); discriminate.
Qed.
Print Assumptions allocated_pages.

(** ** C43: FreePages *)

Lemma free_pages_err : forall dbg bits g a base pages e g' a', reach dbg bits g -> base < two64 ->
  free_pages dbg g a base pages = (Err e, g', a') ->
  (g' = g) \/ (base < 2 ^ bits /\ exists f k, tag g' base = Some (f, k) /\ (k = al_handle a \/ k = 0)).
Proof.
  intros dbg bits g a base pages e g' a' RC WB E. unfold free_pages in E.
  destruct (let* q := size_to_pages dbg (al_gran a) in align_up 64 pages q) as [n| |]; try (inversion E; subst; auto; fail).
  destruct (negb (base mod al_gran a =? 0)); [inversion E; subst; auto|].
  destruct (descriptor_tag _ _ _ base RC) as (d & D1 & D2). rewrite D1 in E.
  destruct (N.eqb_spec (ms_image (b_st d)) (al_handle a)) as [EI|]; cbn [negb] in E; [|inversion E; subst; auto].
  destruct (pages_to_size dbg n) as [len| |] eqn:EL; try (inversion E; subst; auto; fail).
  assert (WL : word len).
  { unfold pages_to_size, umul in EL. destruct (N.ltb_spec (n * PAGE) two64); [inversion EL; subst; assumption|]. destruct dbg; [discriminate|]. inversion EL.
    unfold word. apply N.mod_lt. discriminate. }
  destruct (gcd_step g _) as [rg g1] eqn:E4. destruct rg as [v|e4|].
  - destruct (notify_freed dbg a base n) as [a1|e5|] eqn:EN; try discriminate. inversion E; subst. unfold notify_freed in EN.
    exfalso. clear - EN. assert (UI : forall x, update_info dbg x <> Err e).
    { intros x X. unfold update_info, usub, size_to_pages, uadd in X. repeat (match type of X with context [if ?b then _ else _] => destruct b end; cbn [bind] in X; try discriminate). }
    destruct (in_reserved _ base).
    + unfold umul in EN. destruct (_ <? _); cbn [bind] in EN; [eapply UI; exact EN|]. destruct dbg; cbn [bind] in EN; [discriminate|eapply UI; exact EN].
    + cbn [bind] in EN. eapply UI; exact EN.
  - inversion E; subst g' a'. pose proof (reach_map _ _ _ RC) as (M & Mx & EM & _).
    assert (W : op_wf (if in_reserved a base then OpFreePreserving base len else OpFree base len)) by (destruct (in_reserved a base); split; assumption).
    pose proof (gcd_step_map g _ (Err e4) g1 M Mx W E4) as P. cbn [step_post] in P. destruct P as [->|(_ & _ & P)]; [auto|]. right.
    destruct P as (b0 & l0 & s & C1 & C2 & _ & _ & _ & _ & _ & G1 & G2).
    assert (EE : b0 = base /\ l0 = len) by (destruct (in_reserved a base); cbn [call_range] in C1; inversion C1; auto). destruct EE; subst b0 l0.
    destruct (G1 base) as (S1 & S2); [unfold in_range; lia|].
    assert (BB : base < 2 ^ bits).
    { destruct (N.lt_ge_cases base (2 ^ bits)) as [|GE]; [assumption|]. rewrite (state_at_out _ _ _ _ (proj1 M)) in S1; [discriminate|]. rewrite EM. lia. }
    split; [exact BB|].
    apply tag_of in S1, S2. rewrite (D2 BB) in S1. injection S1 as _ X2. rewrite S2. cbn [ms_alloc ms_image].
    destruct (in_reserved a base); [exists false, (ms_image s)|exists false, 0]; split; auto; left; congruence.
  - inversion E.
Qed.

Lemma try_free_ok : forall dbg bits base pages l g g' l', reach dbg bits g -> word pages -> base < two64 ->
  (forall a, In a l -> (exists q, al_gran a = 2 ^ q /\ 12 <= q /\ q < 64) /\ al_handle a <> 0) -> NoDup (map al_handle l) ->
  try_free_pages dbg g l base pages = (Ok tt, g', l') -> exists a a', In a l /\ free_pages dbg g a base pages = (Ok tt, g', a').
Proof.
  induction l as [|a l IH]; intros g g' l' R WP WB HG ND E; cbn [try_free_pages] in E; [discriminate|].
  destruct (free_pages dbg g a base pages) as [[r g1] a1] eqn:EF. destruct r as [[]|e|].
  - inversion E; subst. exists a, a1. split; [left; reflexivity|exact EF].
  - destruct (try_free_pages dbg g1 l base pages) as [[r2 g2] l2] eqn:ET. inversion E; subst r2 g2 l'. inversion ND as [|? ? N1 N2]; subst.
    destruct (free_pages_err _ _ _ _ _ _ _ _ _ R WB EF) as [->|(BB & f & k & T & KK)].
    + destruct (IH g g' l2 R WP WB ltac:(intros; apply HG; right; assumption) N2 ET) as (b & b' & Hb & Eb). exists b, b'. split; [right; exact Hb|exact Eb].
    + exfalso. assert (R1 : reach dbg bits g1).
      { clear - R EF WB. unfold free_pages in EF.
        destruct (let* q := size_to_pages dbg (al_gran a) in align_up 64 pages q) as [n| |]; try (inversion EF; subst; auto; fail).
        destruct (negb _); [inversion EF; subst; auto|]. destruct (get_memory_descriptor_for_address g base) as [d|[]|]; try (inversion EF; subst; auto; fail).
        destruct (negb _); [inversion EF; subst; auto|]. destruct (pages_to_size dbg n) as [len| |] eqn:EL; try (inversion EF; subst; auto; fail).
        assert (WL : word len).
        { unfold pages_to_size, umul in EL. destruct (N.ltb_spec (n * PAGE) two64); [inversion EL; subst; assumption|]. destruct dbg; [discriminate|]. inversion EL.
          unfold word. apply N.mod_lt. discriminate. }
        assert (W : op_wf (if in_reserved a base then OpFreePreserving base len else OpFree base len)) by (destruct (in_reserved a base); split; assumption).
        destruct (gcd_step g _) as [rg g2] eqn:E4. destruct rg as [v|e4|].
        - assert (R2 : reach dbg bits g2) by (eapply reach_step; eauto; discriminate). destruct (notify_freed dbg a base n); inversion EF; subst; exact R2.
        - assert (R2 : reach dbg bits g2) by (eapply reach_step; eauto; discriminate). inversion EF; subst; exact R2.
        - inversion EF. }
      pose proof (free_pages_skip dbg bits g1 base pages f k l R1 WP BB T) as SK. specialize (SK ltac:(
        intros a2 H2; destruct (HG a2 (or_intror H2)) as (O1 & O2); split; [exact O1|]; destruct KK as [->| ->];
        [intros X; apply N1; rewrite X; now apply in_map|congruence]) []).
      rewrite app_nil_r in SK. cbn [try_free_pages] in SK. rewrite SK in ET. discriminate.
  - inversion E.
Qed.

(** FreePages succeeds only on memory allocated to one of the allocators, and frees exactly the pages asked for, rounded
    up to its granularity.  After ExitBootServices ([g_locked]) it succeeds without effect. *)
Theorem free_pages_only_own : forall dbg bits s L base pages s', history dbg bits s L -> word base ->
  sys_step dbg s (SFreePages base pages) = (Done, s') ->
  exists a, In a (s_als s) /\ base mod al_gran a = 0 /\
    let len := round_up (pages * 4096) (al_gran a) in
    ((g_locked (s_g s) = true /\ g_blocks (s_g s') = g_blocks (s_g s)) \/
     (0 < len /\ base + len <= 2 ^ bits /\
      (forall x, in_range base len x -> allocated_to (s_g s) (al_handle a) x /\
         (free_of (s_g s') 0 x \/ free_of (s_g s') (al_handle a) x)) /\
      (forall x, ~ in_range base len x -> state_at (g_blocks (s_g s')) x = state_at (g_blocks (s_g s)) x))).
Proof.
  intros dbg bits [g m l] L base pages s' H WB E. apply history_inv in H. cbn [sys_step s_g s_m s_als] in *. unfold core_free_pages in E.
  destruct (N.leb_spec two64 (pages * PAGE)) as [|C1]; [discriminate|].
  destruct (N.leb_spec two64 (base + pages * PAGE)) as [|C2]; [discriminate|].
  destruct (negb (base mod PAGE =? 0)); [discriminate|].
  destruct (try_free_pages dbg g l base pages) as [[r g'] l'] eqn:EF. destruct r as [[]|e|]; try discriminate. injection E as <-. cbn [s_g].
  assert (WP : word pages) by (unfold word, PAGE in *; lia).
  pose proof (i_reach _ _ _ _ H) as RC. cbn [s_g] in RC.
  destruct (try_free_ok dbg bits base pages l g g' l' RC WP WB) as (a & a' & Ha & Ea); auto.
  { intros a Ha. split; [eapply gran_of; exact (i_runs _ _ _ _ H a Ha)|exact (proj1 (i_handle _ _ _ _ H a Ha))]. }
  { exact (i_handles _ _ _ _ H). }
  exists a. split; [exact Ha|]. destruct (gran_of _ _ _ _ (i_runs _ _ _ _ H a Ha)) as (kk & Ek & Hk1 & Hk2).
  unfold free_pages in Ea. rewrite Ek in *. destruct (gran_pages dbg kk Hk1 Hk2) as (Gp & _). rewrite Gp in Ea. cbn [bind] in Ea.
  destruct (align_up 64 pages (2 ^ (kk - 12))) as [n|e|] eqn:EA; try (inversion Ea; fail).
  pose proof (round_up_pages _ _ _ Hk1 Hk2 WP EA) as RN.
  destruct (N.eqb_spec (base mod 2 ^ kk) 0) as [M|]; cbn [negb] in Ea; [|inversion Ea]. split; [exact M|]. cbv zeta.
  destruct (descriptor_tag _ _ _ base RC) as (d & D1 & D2). rewrite D1 in Ea.
  destruct (N.eqb_spec (ms_image (b_st d)) (al_handle a)) as [EI|]; cbn [negb] in Ea; [|inversion Ea].
  destruct (pages_to_size dbg n) as [len| |] eqn:EL; try (inversion Ea; fail).
  destruct (gcd_step g _) as [rg g1] eqn:E4. destruct rg as [v|e4|]; try (inversion Ea; fail).
  assert (g1 = g') by (destruct (notify_freed dbg a base n); inversion Ea; reflexivity). subst g1.
  assert (WL : word len).
  { unfold pages_to_size, umul in EL. destruct (N.ltb_spec (n * PAGE) two64); [inversion EL; subst; assumption|]. destruct dbg; [discriminate|]. inversion EL.
    unfold word. apply N.mod_lt. discriminate. }
  assert (W : op_wf (if in_reserved a base then OpFreePreserving base len else OpFree base len)) by (destruct (in_reserved a base); split; assumption).
  pose proof RC as ((nn & p & ops & R) & B). pose proof (memory_call_exact_effect _ _ _ _ _ _ _ _ _ R B W E4) as X.
  assert (EFF : (g_locked g = true /\ g_blocks g' = g_blocks g) \/ exists st st', 0 < len /\ base + len <= 2 ^ bits /\ ms_alloc st = true /\
     ms_alloc st' = false /\ (ms_image st' = 0 \/ ms_image st' = ms_image st) /\ range_changed (g_blocks g) (g_blocks g') base len st st').
  { clear - X. destruct (in_reserved a base); (destruct X as [(_ & X1 & X2)|(b0 & l0 & st & st' & X1 & X2 & X3 & X4 & X5)]; [left; split; assumption|right]);
    cbn [call_range] in X1; apply (f_equal (fun o => match o with Some p => p | None => (0, 0) end)) in X1; apply pair_equal_spec in X1; destruct X1 as (<- & <-);
    cbn [call_effect] in X4; destruct X4 as (X4 & _ & _ & X6); exists st, st'; subst st'; cbn [ms_alloc ms_image];
    (split; [exact X2|]; split; [exact X3|]; split; [exact X4|]; split; [reflexivity|]; split; [|exact X5]); [right|left]; reflexivity. }
  destruct EFF as [EFF|(st & st' & F1 & F2 & F3 & F4 & F5 & G1 & G2)]; [left; exact EFF|right].
  assert (LEN : len = round_up (pages * 4096) (2 ^ kk)).
  { rewrite <- RN. unfold pages_to_size, umul in EL. destruct (N.ltb_spec (n * PAGE) two64) as [|OV]; [injection EL as <-; reflexivity|]. exfalso.
    destruct dbg; [discriminate|]. injection EL as EL. clear - EL OV F1 RN Hk1 Hk2 C1.
    assert (UP : n * PAGE <= two64).
    { change PAGE with 4096 in *. rewrite RN. unfold round_up. change two64 with (2 ^ 64) in *.
      replace (2 ^ 64) with (2 ^ (64 - kk) * 2 ^ kk) in * by (rewrite <- N.pow_add_r; f_equal; lia).
      assert (0 < 2 ^ kk) by (apply N.neq_0_lt_0, N.pow_nonzero; discriminate). apply N.mul_le_mono_r. apply N.lt_succ_r. apply N.div_lt_upper_bound; [lia|]. nia. }
    assert (n * PAGE = two64) as X by lia. rewrite X in EL. rewrite N.mod_same in EL by discriminate. lia. }
  rewrite <- LEN.
  split; [exact F1|]. split; [exact F2|]. split; [|exact G2].
  assert (IM : ms_image st = al_handle a).
  { destruct (G1 base) as (S1 & _); [unfold in_range; lia|]. apply tag_of in S1. rewrite D2 in S1 by lia. congruence. }
  intros x Hx. destruct (G1 x Hx) as (S1 & S2). split; [exists st; auto|]. destruct F5 as [F5|F5]; [left|right]; exists st'; repeat split; auto; congruence.
Qed.
Print Assumptions free_pages_only_own.

Lemma gran_multiple : forall k x, 12 <= k -> k < 64 -> x mod 2 ^ k = 0 -> x mod PAGE = 0 /\ (x / PAGE) mod 2 ^ (k - 12) = 0 /\ x = x / PAGE * PAGE.
Proof.
  intros k x H1 H2 X. destruct (gran_pages true k H1 H2) as (_ & E). rewrite E in X. pose proof (pow2_pos (k - 12)) as Q. set (q := 2 ^ (k - 12)) in *.
  assert (QP : q * PAGE <> 0) by (apply N.neq_mul_0; split; [clear - Q; lia|discriminate]).
  apply N.mod_divide in X; [|exact QP]. destruct X as (z & ->). rewrite N.mul_assoc.
  rewrite N.mod_mul, N.div_mul by discriminate. split; [reflexivity|]. split; [apply N.mod_mul; clear - Q; lia|reflexivity].
Qed.
Lemma align_ok : forall k pages, 12 <= k -> k < 64 -> word pages -> round_up (pages * 4096) (2 ^ k) < two64 ->
  exists n, align_up 64 pages (2 ^ (k - 12)) = Ok n.
Proof.
  intros k pages H1 H2 W R.
  pose proof (align_up_main 64 pages (2 ^ (k - 12)) W ltac:(apply N.pow_lt_mono_r; lia)) as AM.
  destruct (align_up 64 pages (2 ^ (k - 12))) as [n|e|]; [eauto| |contradiction]. exfalso.
  destruct AM as (_ & [X|X]); [apply X; eauto|]. pose proof (pad_ge (pages * 4096) (2 ^ k) (pow2_pos k)) as PG. change (pad (pages * 4096) (2 ^ k)) with (round_up (pages * 4096) (2 ^ k)) in PG.
  assert (RM : round_up (pages * 4096) (2 ^ k) mod 2 ^ k = 0) by (unfold round_up; apply N.mod_mul; pose proof (pow2_pos k); lia).
  destruct (gran_multiple _ _ H1 H2 RM) as (_ & X2 & X3). set (y := round_up _ _) in *. specialize (X (y / PAGE) X2). clearbody y. set (z := y / PAGE) in *. clearbody z.
  change two64 with (2 ^ 64) in R. clear - X X3 PG R. unfold PAGE in *. assert (pages <= z) by lia. specialize (X H). lia.
Qed.

(** Pages one holds can be given back, all or part of a run, as long as the map has room for the split and the memory
    supports the state the map gives free memory. *)
Theorem own_pages_are_freed : forall dbg bits s L ty v len b pages st, history dbg bits s L ->
  In (HRun ty v len) L -> 0 < pages -> b mod granularity s ty = 0 -> v <= b ->
  let n := round_up (pages * 4096) (granularity s ty) in
  b + n <= v + len -> g_locked (s_g s) = false -> room (s_g s) 4 ->
  uniform (s_g s) b n st -> ms_type st <> NonExistent -> bits_subset (reset_attrs st) (ms_caps st) ->
  exists s', sys_step dbg s (SFreePages b pages) = (Done, s').
Proof.
  intros dbg bits [g m l] L ty v len b pages st H HI P0 M V1 n V2 LK RM UN NE BS. apply history_inv in H.
  destruct (part_ok _ _ _ _ _ _ _ _ _ _ _ H P0 HI M V1 V2) as (pre & a & post & n0 & rest & [EQ ET EN WP TB BB SM _ _ RI OK]).
  assert (Ha : In a l) by (rewrite EQ; apply in_mid; auto).
  assert (GR : granularity (Sys g m l) ty = al_gran a) by (rewrite <- ET; exact (granularity_of _ _ _ _ _ H Ha)).
  assert (NN : n = n0) by (unfold n; rewrite EN, GR; reflexivity). rewrite GR in M.
  pose proof (i_reach _ _ _ _ H) as RC. cbn [s_g] in *. destruct (i_handle _ _ _ _ H a Ha) as (H0 & HW).
  destruct (r_gran _ _ _ _ (proj1 RI)) as (kk & Ek & Hk1 & Hk2). pose proof (r_bits _ _ _ _ (proj1 RI)) as HB. pose proof (pow_le_64 _ HB) as HB2.
  pose proof (Forall_inv (r_run _ _ _ _ (proj1 RI))) as (F1 & F2 & F3 & F4 & F5). cbn [fst snd] in F1, F2, F3, F4, F5.
  destruct (gran_pages dbg kk Hk1 Hk2) as (Gp & Gm).
  assert (AL : forall x, x mod al_gran a = 0 -> page_aligned x).
  { intros x X. rewrite Ek in X. exact (proj1 (gran_multiple _ _ Hk1 Hk2 X)). }
  pose proof (reach_map _ _ _ RC) as (MO & Mx & EM & _).
  assert (SA : ms_alloc st = true).
  { assert (IB : in_range b n b) by (unfold in_range; rewrite NN; lia). pose proof (tag_of _ _ _ (UN b IB)) as X. rewrite TB in X. congruence. }
  assert (FS : fst (gcd_step g (if in_reserved a b then OpFreePreserving b n0 else OpFree b n0)) = Ok 0).
  { change (if in_reserved a b then OpFreePreserving b n0 else OpFree b n0) with (free_op (in_reserved a b) b n0).
    apply (free_succeeds (in_reserved a b) g b n0 st); auto; [rewrite EM; exact F5|rewrite <- NN; exact UN]. }
  destruct (gcd_step g (if in_reserved a b then OpFreePreserving b n0 else OpFree b n0)) as [rg g1] eqn:E4. cbn [fst] in FS. subst rg.
  assert (LW : n0 < two64) by (change two64 with (2 * 2 ^ 63); clear - F5 HB2; lia).
  assert (BW : b < two64) by (change two64 with (2 * 2 ^ 63); clear - F5 HB2; lia).
  assert (T : forall x, in_range b n0 x -> tag g x = Some (true, al_handle a)).
  { intros x Hx. apply (r_owned _ _ _ _ (proj1 RI) (b, n0) x); [left; reflexivity|exact Hx]. }
  pose proof (free_gave _ _ _ _ _ _ _ _ (al_handle a) RC BW LW E4 T) as GV.
  assert (FP : exists a', free_pages dbg g a b pages = (Ok tt, g1, a')).
  { unfold free_pages. rewrite Ek, Gp. cbn [bind].
    destruct (align_ok kk pages Hk1 Hk2 WP) as (k & EA); [rewrite <- Ek, <- EN; exact LW|]. rewrite EA.
    pose proof (round_up_pages _ _ _ Hk1 Hk2 WP EA) as RN. rewrite <- Ek, <- EN in RN. rewrite <- Ek, F3. cbn [N.eqb negb].
    destruct (descriptor_tag _ _ _ b RC) as (d & D1 & D2). rewrite D1. rewrite D2 in TB by exact BB. injection TB as _ TB2. rewrite TB2, N.eqb_refl. cbn [negb].
    unfold pages_to_size, umul. rewrite RN. rewrite (proj2 (N.ltb_lt _ _) LW). rewrite E4.
    destruct (rinv_give bits dbg g g1 a _ b n0 k (proj1 RI) H0 GV RN) as (a1 & N1 & _). rewrite N1. eexists. reflexivity. }
  destruct FP as (a' & FP). cbn [sys_step s_g s_m s_als]. unfold core_free_pages.
  rewrite (proj2 (N.leb_gt _ _)) by (clear - SM; lia). rewrite (proj2 (N.leb_gt _ _)) by exact SM.
  pose proof (AL b F3) as PB. unfold page_aligned in PB. change UEFI_PAGE_SIZE with PAGE in PB. rewrite PB. cbn [N.eqb negb]. rewrite EQ.
  rewrite (free_pages_skip dbg bits g b pages true (al_handle a) pre RC WP BB TB).
  2:{ intros a2 H2. destruct (OK a2 ltac:(apply in_or_app; auto)) as (O1 & O2 & _). auto. }
  cbn [try_free_pages]. rewrite FP. cbn [done]. eexists. reflexivity.
Qed.
Print Assumptions own_pages_are_freed.

(** Memory that belongs to no allocator, or an address off the page grid, is rejected and nothing changes. *)
Theorem foreign_pages_rejected : forall dbg bits s L base pages, history dbg bits s L -> word base -> word pages ->
  (base mod 4096 <> 0 \/ (base < 2 ^ bits /\ forall h, some_handle s h -> owner (s_g s) base <> Some h)) ->
  exists e, sys_step dbg s (SFreePages base pages) = (Failed e, s).
Proof.
  intros dbg bits [g m l] L base pages H WB WP C. apply history_inv in H. cbn [sys_step s_g s_m s_als]. unfold core_free_pages.
  destruct (two64 <=? pages * PAGE); [eexists; reflexivity|]. destruct (two64 <=? base + pages * PAGE); [eexists; reflexivity|].
  destruct (N.eqb_spec (base mod PAGE) 0) as [M|]; cbn [negb]; [|eexists; reflexivity].
  destruct C as [C|(B & C)]; [contradiction|]. pose proof (i_reach _ _ _ _ H) as RC. cbn [s_g] in RC.
  destruct (descriptor_tag _ _ _ base RC) as (d & D1 & D2). specialize (D2 B).
  pose proof (free_pages_skip dbg bits g base pages _ _ l RC WP B D2) as SK. specialize (SK ltac:(
    intros a Ha; split; [eapply gran_of; exact (i_runs _ _ _ _ H a Ha)|]; intros X; apply (C (al_handle a)); [exists a; auto|];
    unfold owner, s_g; unfold tag in D2; destruct (state_at (g_blocks g) base); [cbn [option_map] in *; congruence|discriminate]) []).
  rewrite app_nil_r in SK. rewrite SK. cbn [try_free_pages done]. rewrite app_nil_r. eexists. reflexivity.
Qed.
Print Assumptions foreign_pages_rejected.

(** The pages an allocator reports, a 32 bit field of the memory type information, are the pages outstanding. *)
Lemma npages_outstanding : forall a L, npages (runs a L) = outstanding a L.
Proof.
  intros a L. unfold outstanding, runs, npages. rewrite map_app, map_map.
  assert (TA : forall l1 l2, total (l1 ++ l2) = total l1 + total l2) by (induction l1 as [|x r IH]; intros l2; cbn [app total]; [lia|rewrite IH; lia]).
  rewrite TA, N.add_comm. f_equal. unfold held. induction L as [|h L IH]; [reflexivity|]. cbn [flat_map map]. rewrite map_app, TA, IH. cbn [total]. f_equal.
  destruct h as [| |t b len]; cbn [held_of]; try reflexivity. destruct (t =? al_type a); cbn [map total snd]; [unfold PAGE; lia|reflexivity].
Qed.
Theorem page_statistics : forall dbg bits s L a, history dbg bits s L -> In a (s_als s) ->
  al_pages a = outstanding a L mod 2 ^ 32.
Proof.
  intros dbg bits s L a H Ha. apply history_inv in H. pose proof (proj2 (i_runs _ _ _ _ H a Ha)) as X. rewrite npages_outstanding in X. exact X.
Qed.
Print Assumptions page_statistics.
