(** The allocation searches. *)
From Verif Require Import Base.Prelude Align.Model Align.Proofs Align.Main Gcd.Blocks Gcd.Model Gcd.Spec Gcd.BlockProofs Gcd.Proofs.
Local Open Scope N_scope.

Lemma mask_const : forall sh, sh < 64 -> two64 - 2 ^ sh = N.lxor (2 ^ 64 - 1) (2 ^ sh - 1).
Proof.
  assert (H : forallb (fun n => two64 - 2 ^ n =? N.lxor (2 ^ 64 - 1) (2 ^ n - 1)) (map N.of_nat (seq 0 64)) = true)
    by (vm_compute; reflexivity).
  intros sh Hs. rewrite forallb_forall in H. apply N.eqb_eq. apply (H sh).
  apply in_map_iff. exists (N.to_nat sh). split; [lia|]. apply in_seq. lia.
Qed.

Lemma mask_down_eq : forall a sh, a < two64 -> sh < 64 -> mask_down a sh = a / 2 ^ sh * 2 ^ sh.
Proof.
  intros a sh Ha Hs. unfold mask_down. rewrite mask_const by exact Hs. apply land_compl_mask; [exact Ha|lia].
Qed.

(** Floor facts in a lia-friendly form. *)
Lemma mask_down_spec : forall a sh, a < two64 -> sh < 64 ->
  mask_down a sh <= a /\ (mask_down a sh) mod 2 ^ sh = 0 /\ a < mask_down a sh + 2 ^ sh /\
  (forall m, m mod 2 ^ sh = 0 -> m <= a -> m <= mask_down a sh) /\
  (forall m, m mod 2 ^ sh = 0 -> mask_down a sh < m -> mask_down a sh + 2 ^ sh <= m).
Proof.
  intros a sh Ha Hs. rewrite mask_down_eq by assumption.
  pose proof (pow2_pos sh) as P. destruct (floor_greatest (2 ^ sh) a P) as ((M & L) & G).
  split; [exact L|]. split; [exact M|]. split.
  { pose proof (N.div_mod a (2 ^ sh)). pose proof (N.mod_lt a (2 ^ sh)). lia. }
  split; [exact G|].
  intros m Hm Hlt. apply (mult_of _ _ P) in Hm. destruct Hm as (q & ->).
  assert (a / 2 ^ sh < q) by nia. nia.
Qed.

Lemma shift_of : forall E dbg s sh, ushift_amount (E := E) dbg s = Ok sh -> sh = s mod 64 /\ sh < 64.
Proof.
  intros E dbg s sh H. unfold ushift_amount in H. destruct (N.ltb_spec s 64).
  - inversion H; subst. rewrite N.mod_small; lia.
  - destruct dbg; [discriminate|]. inversion H; subst. split; [reflexivity|]. apply N.mod_lt. lia.
Qed.

Lemma shift_panic : forall E dbg s, ushift_amount (E := E) dbg s = Panic -> dbg = true.
Proof. intros E dbg s. unfold ushift_amount. destruct (s <? 64); [discriminate|]. destruct dbg; [reflexivity|discriminate]. Qed.

Lemma shift_err : forall E dbg s e, ushift_amount (E := E) dbg s <> Err e.
Proof. intros E dbg s e. unfold ushift_amount. destruct (s <? 64); [discriminate|]. destruct dbg; discriminate. Qed.

Lemma uadd_panic : forall E dbg a b, uadd (E := E) dbg a b = Panic -> dbg = true.
Proof. intros E dbg a b. unfold uadd. destruct (a + b <? two64); [discriminate|]. destruct dbg; [reflexivity|discriminate]. Qed.
Lemma uadd_err : forall E dbg a b e, uadd (E := E) dbg a b <> Err e.
Proof. intros E dbg a b e. unfold uadd. destruct (a + b <? two64); [discriminate|]. destruct dbg; discriminate. Qed.
Lemma usub_panic : forall E dbg a b, usub (E := E) dbg a b = Panic -> dbg = true.
Proof. intros E dbg a b. unfold usub. destruct (b <=? a); [discriminate|]. destruct dbg; [reflexivity|discriminate]. Qed.
Lemma usub_err : forall E dbg a b e, usub (E := E) dbg a b <> Err e.
Proof. intros E dbg a b e. unfold usub. destruct (b <=? a); [discriminate|]. destruct dbg; discriminate. Qed.

(** align_up(UEFI_PAGE_SIZE, 2^sh): the least multiple of the alignment at or above one page. *)
Lemma page_up : forall sh, sh < 64 -> exists p, align_up 64 UEFI_PAGE_SIZE (2 ^ sh) = Ok p /\
  p mod 2 ^ sh = 0 /\ UEFI_PAGE_SIZE <= p < two64 /\ (forall m, m mod 2 ^ sh = 0 -> UEFI_PAGE_SIZE <= m -> p <= m).
Proof.
  intros sh Hs. assert (A : 2 ^ sh < 2 ^ 64) by (apply N.pow_lt_mono_r; lia).
  pose proof (align_up_main 64 UEFI_PAGE_SIZE (2 ^ sh)) as H.
  assert (W : exists p, align_up 64 UEFI_PAGE_SIZE (2 ^ sh) = Ok p).
  { assert (C : forallb (fun n => is_ok (align_up 64 UEFI_PAGE_SIZE (2 ^ n))) (map N.of_nat (seq 0 64)) = true)
      by (vm_compute; reflexivity).
    rewrite forallb_forall in C. specialize (C sh). destruct (align_up 64 UEFI_PAGE_SIZE (2 ^ sh)) as [p| |]; [eauto| |];
    (discriminate C; apply in_map_iff; exists (N.to_nat sh); split; [lia|]; apply in_seq; lia). }
  destruct W as (p & W). rewrite W in H. exists p. split; [exact W|].
  destruct H as (_ & H1 & H2 & H3 & H4); [reflexivity|exact A|]. unfold two64. auto.
Qed.

(** One block of the bottom-up search. *)
Definition cand_up (b : mblock) (sh len max a : N) : Prop :=
  fits b a len /\ a mod 2 ^ sh = 0 /\ UEFI_PAGE_SIZE <= a /\ a + len <= max /\ (b_base b = 0 -> a + len < max).

Lemma bottom_up_block : forall dbg (b : mblock) ty s len max, 0 < len -> len < two64 -> b_end b < two64 -> max < two64 ->
  match bottom_up_candidate dbg b ty s len max with
  | Skip => ms_type (b_st b) <> ty \/ forall a, ~ cand_up b (s mod 64) len max a
  | Stop e => e = NotFound /\ forall a, a mod alignment_of s = 0 -> b_base b <= a -> max < a + len
  | Try a0 => ms_type (b_st b) = ty /\ 0 < a0 < two64 /\ a0 mod alignment_of s = 0 /\
              (a0 + len < two64 -> a0 + len <= max) /\
              forall a, cand_up b (s mod 64) len max a -> a0 <= a /\ fits b a0 len
  | CPanic => dbg = true
  end.
Proof.
  intros dbg b ty s len max Hl0 Hl He Hmax. unfold bottom_up_candidate, alignment_of.
  destruct (ushift_amount dbg s) as [sh|e|] eqn:ES.
  2: { now apply shift_err in ES. }
  2: { now apply shift_panic in ES. }
  apply shift_of in ES. destruct ES as (<- & Hsh).
  assert (Hb : b_base b < two64) by (unfold b_end in He; lia).
  destruct (N.ltb_spec (b_len b) len).
  { right. intros a ((F1 & F2 & F3) & _). unfold b_end in F3. lia. }
  pose proof (mask_down_spec (b_base b) sh Hb Hsh) as (M1 & M2 & M3 & M4 & M5).
  set (addr0 := mask_down (b_base b) sh) in *.
  pose proof (pow2_pos sh) as P.
  assert (PL : 2 ^ sh < two64) by (unfold two64; apply N.pow_lt_mono_r; lia).
  (* the candidate, which may wrap to 0 *)
  assert (A : match (if addr0 <? b_base b then uadd (E := efi_error) dbg addr0 (2 ^ sh) else Ok addr0) with
              | Ok addr => addr < two64 /\ addr mod 2 ^ sh = 0 /\
                  ((b_base b <= addr /\ forall m, m mod 2 ^ sh = 0 -> b_base b <= m -> addr <= m) \/
                   (addr = 0 /\ 0 < b_base b /\ forall m, m mod 2 ^ sh = 0 -> b_base b <= m -> two64 <= m))
              | Err _ => False
              | Panic => dbg = true
              end).
  { destruct (N.ltb_spec addr0 (b_base b)) as [L|L].
    - destruct (uadd dbg addr0 (2 ^ sh)) as [addr|e|] eqn:EU.
      + unfold uadd in EU. destruct (N.ltb_spec (addr0 + 2 ^ sh) two64) as [W|W].
        * inversion EU; subst. split; [lia|]. split.
          { rewrite <- (N.mod_add addr0 1 (2 ^ sh)) in M2 by lia. rewrite N.mul_1_l in M2. exact M2. }
          left. split; [lia|]. intros m Hm Hle. apply M5; lia.
        * destruct dbg; [discriminate|]. inversion EU; subst.
          assert (X : addr0 + 2 ^ sh = two64).
          { (* addr0 < 2^64 is a multiple of 2^sh, and so is 2^64 *)
            assert (Q : addr0 + 2 ^ sh <= two64).
            { apply M5; [|lia]. unfold two64. replace 64 with ((64 - sh) + sh) by lia. rewrite N.pow_add_r.
              apply N.mod_mul. lia. }
            lia. }
          rewrite X, N.mod_same by (unfold two64; lia). split; [lia|]. split; [apply N.mod_0_l; lia|].
          right. split; [reflexivity|]. split; [lia|]. intros m Hm Hle. rewrite <- X. apply M5; lia.
      + now apply uadd_err in EU.
      + now apply uadd_panic in EU.
    - split; [lia|]. split; [exact M2|]. left. split; [lia|]. intros; lia. }
  destruct (if addr0 <? b_base b then uadd dbg addr0 (2 ^ sh) else Ok addr0) as [addr|e|]; [|contradiction|exact A].
  destruct A as (A1 & A2 & A3).
  destruct (uadd dbg addr len) as [e|e|] eqn:EU.
  2: { now apply uadd_err in EU. }
  2: { now apply uadd_panic in EU. }
  destruct (uadd_ok _ _ _ _ _ EU A1 Hl) as [-> | (W1 & W2 & W3 & W4)].
  - (* no wrap *)
    destruct (N.ltb_spec max (addr + len)) as [Hs|Hs].
    { split; [reflexivity|]. intros a Ha Hba. destruct A3 as [(A3 & A4)|(A3 & A4 & A5)].
      - specialize (A4 a Ha Hba). lia.
      - specialize (A5 a Ha Hba). lia. }
    destruct (mt_eqb (ms_type (b_st b)) ty) eqn:Ety; cbn [negb].
    2: { left. now apply mt_neq. }
    apply mt_eqb_spec in Ety.
    destruct (N.eqb_spec addr 0) as [Z|Z].
    + destruct (page_up sh Hsh) as (p & -> & P1 & P2 & P3).
      destruct (uadd dbg p len) as [e'|e'|] eqn:EU2.
      2: { now apply uadd_err in EU2. }
      2: { now apply uadd_panic in EU2. }
      assert (Bad : forall a, cand_up b sh len max a -> b_base b = 0 /\ p <= a /\ a + len < max).
      { intros a ((F1 & F2 & F3) & C2 & C3 & C4 & C5). destruct A3 as [(A3 & A4)|(A3 & A4 & A5)].
        - assert (b_base b = 0) by lia. auto.
        - specialize (A5 a C2 F1). lia. }
      assert (Epl : e' = p + len \/ (forall a, ~ cand_up b sh len max a)).
      { destruct (uadd_ok _ _ _ _ _ EU2 ltac:(lia) Hl) as [->|(W1 & _)]; [auto|right].
        intros a Ca. destruct (Bad a Ca) as (_ & B2 & B3). lia. }
      destruct (N.leb_spec max e') as [Hm|Hm].
      { right. intros a Ca. destruct (Bad a Ca) as (B1 & B2 & B3). destruct Epl as [->|Epl]; [lia|now apply (Epl a)]. }
      destruct (usub dbg (b_len b) p) as [room|e''|] eqn:EU3.
      2: { now apply usub_err in EU3. }
      2: { now apply usub_panic in EU3. }
      assert (Eroom : forall a, cand_up b sh len max a -> room = b_len b - p /\ p + len <= b_len b).
      { intros a Ca. pose proof (Bad a Ca) as (B1 & B2 & B3). destruct Ca as ((F1 & F2 & F3) & _).
        unfold b_end in F3. rewrite B1 in F3. unfold usub in EU3.
        destruct (N.leb_spec p (b_len b)); [inversion EU3; lia|lia]. }
      destruct (N.ltb_spec room len) as [Hr|Hr].
      { right. intros a Ca. destruct (Eroom a Ca). lia. }
      split; [exact Ety|]. split; [unfold UEFI_PAGE_SIZE in *; lia|]. split; [exact P1|]. split.
      { intros Hw. destruct (uadd_ok _ _ _ _ _ EU2 ltac:(lia) Hl) as [->|(W1 & _)]; lia. }
      intros a Ca. destruct (Bad a Ca) as (B1 & B2 & B3). destruct (Eroom a Ca). split; [exact B2|].
      unfold fits, b_end. rewrite B1. lia.
    + split; [exact Ety|]. split; [lia|]. split; [exact A2|]. split; [auto|].
      intros a ((F1 & F2 & F3) & C2 & C3 & C4 & C5). destruct A3 as [(A3 & A4)|(A3 & A4 & A5)]; [|lia].
      specialize (A4 a C2 F1). split; [exact A4|]. unfold fits. lia.
  - (* addr + len wrapped: nothing fits *)
    assert (NoC : forall a, ~ cand_up b sh len max a).
    { intros a ((F1 & F2 & F3) & C2 & C3 & C4 & C5). destruct A3 as [(A3 & A4)|(A3 & A4 & A5)]; [|lia].
      specialize (A4 a C2 F1). lia. }
    destruct (N.ltb_spec max e) as [Hs|Hs].
    { split; [reflexivity|]. intros a Ha Hba. destruct A3 as [(A3 & A4)|(A3 & A4 & A5)]; [|lia].
      specialize (A4 a Ha Hba). lia. }
    destruct (mt_eqb (ms_type (b_st b)) ty) eqn:Ety; cbn [negb].
    2: { left. now apply mt_neq. }
    apply mt_eqb_spec in Ety.
    destruct (N.eqb_spec addr 0) as [Z|Z]; [lia|].
    split; [exact Ety|]. split; [lia|]. split; [exact A2|]. split; [lia|].
    intros a Ca. exfalso. exact (NoC a Ca).
Qed.

Lemma in_split_base : forall g (b : mblock), map_ok g -> In b (g_blocks g) ->
  exists pre post, g_blocks g = pre ++ b :: post /\ lookup (g_blocks g) (b_base b) = Some b /\
    b_end b <= g_max g /\ (forall x, In x pre -> b_end x <= b_base b) /\ (forall x, In x post -> b_end b <= b_base x).
Proof.
  intros g b (HT & _) HI. apply in_split in HI. destruct HI as (pre & post & E). exists pre, post.
  split; [exact E|]. rewrite E in *. apply tiles_mid in HT. destruct HT as (T1 & T2 & T3).
  split; [apply lookup_mid; eapply tiles_below; eauto|]. pose proof (tiles_le _ _ _ T3). split; [assumption|].
  split.
  - intros x Hx. apply in_split in Hx. destruct Hx as (p1 & p2 & ->). apply tiles_mid in T1.
    destruct T1 as (_ & _ & T1). now apply tiles_le in T1.
  - intros x Hx. apply in_split in Hx. destruct Hx as (p1 & p2 & ->). apply tiles_mid in T3.
    destruct T3 as (T3 & _). now apply tiles_le in T3.
Qed.

(** A free run lies inside one block of the map. *)
Lemma free_run_block : forall g ty image a len, map_ok g -> 0 < len ->
  free_run g ty image a len ->
  ty <> NonExistent /\ ty <> Unaccepted /\
  exists b, In b (g_blocks g) /\ fits b a len /\ ms_alloc (b_st b) = false /\ ms_type (b_st b) = ty /\
    (ms_image (b_st b) = 0 \/ ms_image (b_st b) = image).
Proof.
  intros g ty image a len HM Hl (N1 & N2 & s & S1 & S2 & S3 & S4).
  pose proof HM as (HT & HG & _).
  assert (Hin : state_at (g_blocks g) a = Some s) by (apply S4; unfold in_range; lia).
  assert (Ha : a < g_max g).
  { destruct (N.lt_ge_cases a (g_max g)); [assumption|]. rewrite (state_at_out _ _ _ _ HT) in Hin by lia. discriminate. }
  destruct (find_block g a HM) as (pre & b & post & E & C & L & B1 & B2); [lia|].
  rewrite E in HT, HG, S4.
  destruct (uniform_fits pre b post 0 (g_max g) a len s HT HG) as (HF & ->); auto.
  split; [exact N1|]. split; [exact N2|].
  exists b. rewrite E. split; [apply in_or_app; right; left; reflexivity|]. auto.
Qed.

Lemma feasible_up_block : forall g ty s len image max a, map_ok g -> 0 < len ->
  feasible_up g ty s len image max a ->
  ty <> NonExistent /\ ty <> Unaccepted /\ exists b, In b (g_blocks g) /\ cand_up b (s mod 64) len max a /\
    ms_alloc (b_st b) = false /\ ms_type (b_st b) = ty /\ (ms_image (b_st b) = 0 \/ ms_image (b_st b) = image).
Proof.
  intros g ty s len image max a HM Hl (FR & FA & FP & FM & FE).
  destruct (free_run_block _ _ _ _ _ HM Hl FR) as (N1 & N2 & b & HI & HF & S).
  split; [exact N1|]. split; [exact N2|]. exists b. split; [exact HI|]. split; [|exact S].
  split; [exact HF|]. split; [exact FA|]. split; [exact FP|]. split; [exact FM|].
  intros Z. destruct (N.eq_dec (a + len) max) as [Q|Q]; [|lia]. exfalso.
  destruct (FE Q) as (x & X1 & X2). apply X2.
  destruct (in_split_base g b HM HI) as (pre & post & E & _). destruct HM as (HT & _).
  rewrite E in *. destruct HF as (F1 & F2 & F3).
  rewrite !(state_at_mid _ _ _ _ _ _ HT); [reflexivity|lia|lia].
Qed.

Definition alloc_done (g : gcd) (ty : mem_type) (t : transition) (v len : N) (g' : gcd) : Prop :=
  same_frame g g' /\ map_ok g' /\ 0 < len /\ v + len <= g_max g /\
  exists st st', state_transition t st = Some st' /\ ms_type st = ty /\
    range_changed (g_blocks g) (g_blocks g') v len st st'.

Lemma alloc_transition_none : forall s i d, allocate_transition s i d true = None ->
  ms_alloc s = true \/ ms_type s = NonExistent \/ ms_type s = Unaccepted \/ ~ (ms_image s = 0 \/ ms_image s = i).
Proof.
  intros s i d. unfold allocate_transition. destruct (ms_alloc s) eqn:EA; cbn [negb andb]; [auto|].
  destruct (mt_eqb (ms_type s) NonExistent) eqn:E1; cbn [orb negb].
  { apply mt_eqb_spec in E1. auto. }
  destruct (mt_eqb (ms_type s) Unaccepted) eqn:E2; cbn [orb negb].
  { apply mt_eqb_spec in E2. auto. }
  destruct (N.eqb_spec (ms_image s) 0); cbn [orb negb]; [discriminate|].
  destruct (N.eqb_spec (ms_image s) i); cbn [orb negb]; [discriminate|]. intros _. right. right. right. tauto.
Qed.

Lemma bottom_up_loop_spec : forall rest done g ty s len image device max r g',
  map_ok g -> 0 < g_max g < two64 -> 0 < len -> len < two64 -> max < two64 ->
  g_blocks g = done ++ rest ->
  (forall a, feasible_up g ty s len image max a -> exists b, In b rest /\ b_base b <= a) ->
  bottom_up_loop g (map b_base rest) ty s len image device max = (r, g') ->
  match r with
  | Ok v => alloc_done g ty (TAllocateRespectingOwnership image device) v len g' /\
            aligned s v /\ 0 < v /\ v + len <= max /\
            (forall a, feasible_up g ty s len image max a -> v <= a)
  | Err e => g' = g /\ (e = NotFound \/ e = OutOfResources) /\
             (clen (g_blocks g) + 2 <= g_cap g -> forall a, ~ feasible_up g ty s len image max a)
  | Panic => g_dbg g = true
  end.
Proof.
  induction rest as [|b rest IH]; intros done g ty s len image device max r g' HM Hmax Hl0 Hl Hmx E Hf H;
    cbn [map bottom_up_loop] in H.
  - inversion H; subst. destruct (max =? u64_max);
      (split; [reflexivity|]; split; [auto|]; intros _ a Fa; destruct (Hf a Fa) as (b & [] & _)).
  - assert (HI : In b (g_blocks g)) by (rewrite E; apply in_or_app; right; left; reflexivity).
    assert (SB : lookup (g_blocks g) (b_base b) = Some b /\ b_end b <= g_max g /\
                 (forall x, In x done -> b_end x <= b_base b) /\ (forall x, In x rest -> b_end b <= b_base x)).
    { pose proof HM as (HT & _). rewrite E in HT. apply tiles_mid in HT. destruct HT as (T1 & T2 & T3).
      split; [rewrite E; apply lookup_mid; eapply tiles_below; eauto|].
      pose proof (tiles_le _ _ _ T3). split; [assumption|]. split.
      - intros x Hx. apply in_split in Hx. destruct Hx as (p1 & p2 & ->). apply tiles_mid in T1.
        destruct T1 as (_ & _ & T1). now apply tiles_le in T1.
      - intros x Hx. apply in_split in Hx. destruct Hx as (p1 & p2 & ->). apply tiles_mid in T3.
        destruct T3 as (T3 & _). now apply tiles_le in T3. }
    destruct SB as (L & Hend & Sd & Sr). rewrite L in H.
    (* any feasible address is in b or in the rest *)
    assert (Loc : forall a, feasible_up g ty s len image max a ->
              (ty <> NonExistent /\ ty <> Unaccepted /\ cand_up b (s mod 64) len max a /\ ms_alloc (b_st b) = false /\ ms_type (b_st b) = ty /\
               (ms_image (b_st b) = 0 \/ ms_image (b_st b) = image)) \/
              (exists b', In b' rest /\ b_base b' <= a)).
    { intros a Fa. destruct (feasible_up_block _ _ _ _ _ _ _ HM Hl0 Fa) as (N1 & N2 & x & X1 & X2 & X3).
      rewrite E in X1. apply in_app_or in X1. destruct X1 as [X1|[<-|X1]].
      - exfalso. destruct (Hf a Fa) as (b' & B1 & B2). destruct X2 as ((F1 & F2 & F3) & _).
        pose proof (Sd x X1). destruct B1 as [<-|B1]; [lia|]. pose proof (Sr b' B1). unfold b_end in *. lia.
      - left. auto.
      - right. exists x. split; [exact X1|]. destruct X2 as ((F1 & _) & _). exact F1. }
    assert (E' : g_blocks g = (done ++ [b]) ++ rest) by (rewrite <- app_assoc; exact E).
    pose proof (bottom_up_block (g_dbg g) b ty s len max Hl0 Hl ltac:(lia) Hmx) as P.
    destruct (bottom_up_candidate (g_dbg g) b ty s len max) as [|e|a0|].
    + apply (IH (done ++ [b])) in H; auto.
      intros a Fa. destruct (Loc a Fa) as [(N1 & N2 & C & _ & C3 & _)|C]; [|exact C]. exfalso.
      destruct P as [P|P]; [contradiction|exact (P a C)].
    + inversion H; subst. destruct P as (-> & P). split; [reflexivity|]. split; [auto|].
      intros _ a Fa. destruct (Hf a Fa) as (b' & B1 & B2). destruct Fa as (_ & FA & _ & FM & _).
      assert (b_base b <= a). { destruct B1 as [<-|B1]; [lia|]. pose proof (Sr b' B1). unfold b_end in *. lia. }
      specialize (P a FA). lia.
    + destruct P as (P1 & P2 & P3 & P4 & P5).
      pose proof (g_sst_spec g done b rest a0 len (TAllocateRespectingOwnership image device) HM ltac:(lia) E) as Q.
      specialize (Q ltac:(unfold word; lia) Hl).
      destruct (g_sst g (b_base b) a0 len (TAllocateRespectingOwnership image device)) as [[k|e|] g1] eqn:ES.
      * inversion H; subst.
        destruct (gsst_one_step _ _ _ _ _ _ _ _ _ HM E Q) as ((F & M & _ & Le & _) & (s' & A1 & A2) & HF).
        split.
        { repeat (split; [auto; fail|]). exists (b_st b), s'. auto. }
        split; [exact P3|]. split; [lia|]. split; [apply P4; lia|].
        intros a Fa. destruct (Loc a Fa) as [(_ & _ & C & _)|(b' & B1 & B2)]; [now apply P5|].
        pose proof (Sr b' B1). destruct HF as (HF1 & HF2 & HF3). lia.
      * pose proof Q as Q0. destruct (gsst_err _ _ _ _ _ _ _ Q) as (-> & Hne). destruct Q as (_ & Q).
        destruct e; cbn [sst_post] in Q.
        -- apply (IH (done ++ [b])) in H; auto. intros a Fa.
           destruct (Loc a Fa) as [(N1 & N2 & C & C2 & C3 & C4)|C]; [|exact C]. exfalso.
           destruct Q as (_ & _ & Q). cbn [state_transition] in Q. apply alloc_transition_none in Q.
           destruct Q as [Q|[Q|[Q|Q]]]; [congruence|congruence|congruence|contradiction].
        -- apply (IH (done ++ [b])) in H; auto. intros a Fa.
           destruct (Loc a Fa) as [(N1 & N2 & C & C2 & C3 & C4)|C]; [|exact C]. exfalso.
           destruct Q as (_ & Q). apply Q. now apply (P5 a).
        -- inversion H; subst. split; [reflexivity|]. split; [auto|]. intros Hc. destruct Q as (_ & _ & _ & Q). lia.
        -- contradiction.
      * inversion H; subst. destruct Q as (_ & Q). cbn [sst_post] in Q. tauto.
    + inversion H; subst. exact P.
Qed.

(** ** Top-down *)
Definition cand_down (b : mblock) (sh len max a : N) : Prop :=
  fits b a len /\ a mod 2 ^ sh = 0 /\ 0 < a /\ a + len <= max + 1.

Lemma top_down_block : forall dbg (b : mblock) ty s len max, 0 < len -> len < two64 -> b_end b < two64 ->
  max < two64 -> b_base b <= max -> 0 < b_len b ->
  match top_down_candidate dbg b ty s len max with
  | Skip => ms_type (b_st b) <> ty \/ forall a, ~ cand_down b (s mod 64) len max a
  | Stop e => (e = NotFound \/ e = OutOfResources) /\ b_base b = 0 /\ (forall a, ~ cand_down b (s mod 64) len max a)
  | Try a0 => ms_type (b_st b) = ty /\ 0 < a0 < two64 /\ a0 mod alignment_of s = 0 /\
              a0 + len <= max + 1 /\ fits b a0 len /\
              forall a, cand_down b (s mod 64) len max a -> a <= a0
  | CPanic => dbg = true
  end.
Proof.
  intros dbg b ty s len max Hl0 Hl He Hmax Hbm Hb0. unfold top_down_candidate, alignment_of.
  assert (U : exists u, (if max <? b_end b - 1
                         then (if max <? b_base b then None else Some (max - b_base b + 1))
                         else Some (b_len b)) = Some u /\ u <= b_len b /\ b_base b + u <= max + 1 /\
                        (forall a, fits b a len -> a + len <= max + 1 -> a + len <= b_base b + u)).
  { destruct (N.ltb_spec max (b_end b - 1)) as [L|L].
    - destruct (N.ltb_spec max (b_base b)); [lia|]. eexists. split; [reflexivity|]. unfold fits, b_end in *.
      split; [lia|]. split; [lia|]. intros; lia.
    - eexists. split; [reflexivity|]. unfold fits, b_end in *. split; [lia|]. split; [lia|]. intros; lia. }
  destruct U as (u & -> & U1 & U2 & U3).
  destruct (N.ltb_spec u len).
  { right. intros a (F & _ & _ & C). specialize (U3 a F C). destruct F. lia. }
  destruct (ushift_amount dbg s) as [sh|e|] eqn:ES.
  2: { now apply shift_err in ES. }
  2: { now apply shift_panic in ES. }
  apply shift_of in ES. destruct ES as (<- & Hsh).
  assert (Hx : b_base b + u - len < two64) by (unfold b_end in He; lia).
  pose proof (mask_down_spec _ sh Hx Hsh) as (M1 & M2 & M3 & M4 & M5).
  set (addr := mask_down (b_base b + u - len) sh) in *.
  assert (G : forall a, cand_down b sh len max a -> a <= addr /\ b_base b <= a).
  { intros a (F & C1 & C2 & C3). specialize (U3 a F C3). destruct F as (F1 & F2 & F3). split; [apply M4; lia|lia]. }
  destruct (N.ltb_spec addr (b_base b)) as [L|L].
  { right. intros a Ca. destruct (G a Ca). lia. }
  destruct (mt_eqb (ms_type (b_st b)) ty) eqn:Ety; cbn [negb].
  2: { left. now apply mt_neq. }
  apply mt_eqb_spec in Ety.
  destruct (N.eqb_spec addr 0) as [Z|Z].
  - split; [destruct (max =? u64_max); auto|]. split; [lia|]. intros a Ca. destruct (G a Ca).
    destruct Ca as (_ & _ & C & _). lia.
  - split; [exact Ety|]. split; [lia|]. split; [exact M2|]. split; [lia|]. split.
    + unfold fits, b_end in *. lia.
    + intros a Ca. now apply G.
Qed.

Lemma feasible_down_block : forall g ty s len image max a, map_ok g -> 0 < len ->
  feasible_down g ty s len image max a ->
  ty <> NonExistent /\ ty <> Unaccepted /\ exists b, In b (g_blocks g) /\ cand_down b (s mod 64) len max a /\
    ms_alloc (b_st b) = false /\ ms_type (b_st b) = ty /\ (ms_image (b_st b) = 0 \/ ms_image (b_st b) = image).
Proof.
  intros g ty s len image max a HM Hl (FR & FA & FP & FM).
  destruct (free_run_block _ _ _ _ _ HM Hl FR) as (N1 & N2 & b & HI & HF & S).
  split; [exact N1|]. split; [exact N2|]. exists b. split; [exact HI|]. split; [|exact S].
  split; [exact HF|]. split; [exact FA|]. split; [exact FP|exact FM].
Qed.

(** The loop runs over the blocks below the bound in descending order: [rest] is still to be visited. *)
Lemma top_down_loop_spec : forall rest done g ty s len image device max r g',
  map_ok g -> 0 < g_max g < two64 -> 0 < len -> len < two64 -> max < two64 ->
  g_blocks g = rev rest ++ done -> (forall b, In b rest -> b_base b <= max) ->
  (forall a, feasible_down g ty s len image max a -> exists b, In b rest /\ a < b_end b) ->
  top_down_loop g (map b_base rest) ty s len image device max = (r, g') ->
  match r with
  | Ok v => alloc_done g ty (TAllocateRespectingOwnership image device) v len g' /\
            aligned s v /\ 0 < v /\ v + len <= max + 1 /\
            (forall a, feasible_down g ty s len image max a -> a <= v)
  | Err e => g' = g /\ (e = NotFound \/ e = OutOfResources) /\
             (clen (g_blocks g) + 2 <= g_cap g -> forall a, ~ feasible_down g ty s len image max a)
  | Panic => g_dbg g = true
  end.
Proof.
  induction rest as [|b rest IH]; intros done g ty s len image device max r g' HM Hmax Hl0 Hl Hmx E Hbel Hf H;
    cbn [map top_down_loop] in H.
  - inversion H; subst. destruct (max =? u64_max);
      (split; [reflexivity|]; split; [auto|]; intros _ a Fa; destruct (Hf a Fa) as (b & [] & _)).
  - cbn [rev] in E. rewrite <- app_assoc in E. cbn [app] in E.
    assert (HI : In b (g_blocks g)) by (rewrite E; apply in_or_app; right; left; reflexivity).
    assert (SB : lookup (g_blocks g) (b_base b) = Some b /\ 0 < b_len b /\ b_end b <= g_max g /\
                 (forall x, In x rest -> b_end x <= b_base b) /\ (forall x, In x done -> b_end b <= b_base x) /\
                 (b_base b = 0 -> rest = [])).
    { pose proof HM as (HT & _). rewrite E in HT. apply tiles_mid in HT. destruct HT as (T1 & T2 & T3).
      split; [rewrite E; apply lookup_mid; eapply tiles_below; eauto|].
      pose proof (tiles_le _ _ _ T3). split; [assumption|]. split; [assumption|]. split; [|split].
      - intros x Hx. apply in_rev in Hx. apply in_split in Hx. destruct Hx as (p1 & p2 & Er). rewrite Er in T1.
        apply tiles_mid in T1. destruct T1 as (_ & _ & T1). now apply tiles_le in T1.
      - intros x Hx. apply in_split in Hx. destruct Hx as (p1 & p2 & ->). apply tiles_mid in T3.
        destruct T3 as (T3 & _). now apply tiles_le in T3.
      - intros Z. rewrite Z in T1. destruct (rev rest) as [|y q] eqn:Er.
        + rewrite <- (rev_involutive rest), Er. reflexivity.
        + cbn [tiles] in T1. destruct T1 as (Y1 & Y2 & Y3). apply tiles_le in Y3. unfold b_end in *. lia. }
    destruct SB as (L & Hpos & Hend & Sr & Sd & Sz). rewrite L in H.
    assert (Loc : forall a, feasible_down g ty s len image max a ->
              (ty <> NonExistent /\ ty <> Unaccepted /\ cand_down b (s mod 64) len max a /\ ms_alloc (b_st b) = false /\ ms_type (b_st b) = ty /\
               (ms_image (b_st b) = 0 \/ ms_image (b_st b) = image)) \/
              (exists b', In b' rest /\ a < b_end b')).
    { intros a Fa. destruct (feasible_down_block _ _ _ _ _ _ _ HM Hl0 Fa) as (N1 & N2 & x & X1 & X2 & X3).
      rewrite E in X1. apply in_app_or in X1. destruct X1 as [X1|[<-|X1]].
      - right. exists x. split; [now apply in_rev|]. destruct X2 as ((F1 & F2 & F3) & _). lia.
      - left. auto.
      - exfalso. destruct (Hf a Fa) as (b' & B1 & B2). destruct X2 as ((F1 & F2 & F3) & _).
        pose proof (Sd x X1). destruct B1 as [<-|B1]; [lia|]. pose proof (Sr b' B1). unfold b_end in *. lia. }
    assert (E' : g_blocks g = rev rest ++ (b :: done)) by exact E.
    assert (Hbel' : forall x, In x rest -> b_base x <= max) by (intros; apply Hbel; right; assumption).
    pose proof (top_down_block (g_dbg g) b ty s len max Hl0 Hl ltac:(lia) Hmx (Hbel b (or_introl eq_refl)) Hpos) as P.
    destruct (top_down_candidate (g_dbg g) b ty s len max) as [|e|a0|].
    + apply (IH (b :: done)) in H; auto.
      intros a Fa. destruct (Loc a Fa) as [(N1 & N2 & C & _ & C3 & _)|C]; [|exact C]. exfalso.
      destruct P as [P|P]; [contradiction|exact (P a C)].
    + inversion H; subst. destruct P as (P0 & P1 & P). split; [reflexivity|]. split; [auto|].
      intros _ a Fa. destruct (Loc a Fa) as [(N1 & N2 & C & _)|(b' & B1 & B2)]; [exact (P a C)|].
      rewrite (Sz P1) in B1. destruct B1.
    + destruct P as (P1 & P2 & P3 & P4 & PF & P5).
      pose proof (g_sst_spec g (rev rest) b done a0 len (TAllocateRespectingOwnership image device) HM ltac:(lia) E) as Q.
      specialize (Q ltac:(unfold word; lia) Hl).
      destruct (g_sst g (b_base b) a0 len (TAllocateRespectingOwnership image device)) as [[k|e|] g1] eqn:ES.
      * inversion H; subst.
        destruct (gsst_one_step _ _ _ _ _ _ _ _ _ HM E Q) as ((F & M & _ & Le & _) & (s' & A1 & A2) & HF).
        split.
        { repeat (split; [auto; fail|]). exists (b_st b), s'. auto. }
        split; [exact P3|]. split; [lia|]. split; [exact P4|].
        intros a Fa. destruct (Loc a Fa) as [(_ & _ & C & _)|(b' & B1 & B2)]; [now apply P5|].
        pose proof (Sr b' B1). destruct HF as (HF1 & HF2 & HF3). lia.
      * pose proof Q as Q0. destruct (gsst_err _ _ _ _ _ _ _ Q) as (-> & Hne). destruct Q as (_ & Q).
        destruct e; cbn [sst_post] in Q.
        -- apply (IH (b :: done)) in H; auto. intros a Fa.
           destruct (Loc a Fa) as [(N1 & N2 & C & C2 & C3 & C4)|C]; [|exact C]. exfalso.
           destruct Q as (_ & _ & Q). cbn [state_transition] in Q. apply alloc_transition_none in Q.
           destruct Q as [Q|[Q|[Q|Q]]]; [congruence|congruence|congruence|contradiction].
        -- destruct Q as (_ & Q). contradiction.
        -- inversion H; subst. split; [reflexivity|]. split; [auto|]. intros Hc. destruct Q as (_ & _ & _ & Q). lia.
        -- contradiction.
      * inversion H; subst. destruct Q as (_ & Q). cbn [sst_post] in Q. tauto.
    + inversion H; subst. exact P.
Qed.

(** The keys visited are those of the blocks that start at or below the bound. *)
Lemma keys_down_split : forall (l : list mblock) lo hi max, tiles lo hi l ->
  exists low high, l = low ++ high /\ keys_down_from l max = map b_base (rev low) /\
    (forall b, In b low -> b_base b <= max) /\ (forall b, In b high -> max < b_base b).
Proof.
  unfold keys_down_from. induction l as [|b r IH]; intros lo hi max HT; cbn [tiles] in HT.
  - exists [], []. cbn. repeat split; tauto.
  - destruct HT as (T1 & T2 & T3). cbn [map filter]. destruct (N.leb_spec (b_base b) max) as [L|L].
    + destruct (IH _ _ max T3) as (low & high & -> & E & H1 & H2). exists (b :: low), high.
      split; [reflexivity|]. cbn [rev]. rewrite E, map_app. split; [reflexivity|]. split; [|exact H2].
      intros x [<-|Hx]; auto.
    + exists [], (b :: r). split; [reflexivity|].
      assert (Hab : forall x, In x (b :: r) -> max < b_base x).
      { pose proof (tiles_above r (b_end b) hi max T3 ltac:(unfold b_end; lia)) as A.
        intros x [<-|Hx]; [exact L|]. unfold above in A. rewrite Forall_forall in A. auto. }
      split; [|split; [intros ? []|exact Hab]].
      replace (filter _ (map b_base r)) with (@nil N); [reflexivity|]. symmetry.
      assert (Hr : forall x, In x r -> max < b_base x) by (intros; apply Hab; right; assumption).
      clear -Hr. induction r as [|y q IH]; [reflexivity|]. cbn [map filter].
      destruct (N.leb_spec (b_base y) max); [pose proof (Hr y (or_introl eq_refl)); lia|].
      apply IH. intros; apply Hr; right; assumption.
Qed.

Lemma top_down_search_spec : forall g ty s len image device max r g',
  map_ok g -> 0 < g_max g < two64 -> 0 < len -> len < two64 -> max < two64 ->
  top_down_search g ty s len image device max = (r, g') ->
  match r with
  | Ok v => alloc_done g ty (TAllocateRespectingOwnership image device) v len g' /\
            aligned s v /\ 0 < v /\ v + len <= max + 1 /\
            (forall a, feasible_down g ty s len image max a -> a <= v)
  | Err e => g' = g /\ (e = NotFound \/ e = OutOfResources) /\
             (clen (g_blocks g) + 2 <= g_cap g -> forall a, ~ feasible_down g ty s len image max a)
  | Panic => g_dbg g = true
  end.
Proof.
  intros g ty s len image device max r g' HM Hmax Hl0 Hl Hmx H. unfold top_down_search in H.
  pose proof HM as (HT & _).
  destruct (keys_down_split _ _ _ max HT) as (low & high & E & K & H1 & H2). rewrite K in H.
  apply (top_down_loop_spec (rev low) high) in H; auto.
  - rewrite rev_involutive. exact E.
  - intros b Hb. apply H1. now apply in_rev.
  - intros a Fa. destruct (feasible_down_block _ _ _ _ _ _ _ HM Hl0 Fa) as (N1 & N2 & x & X1 & X2 & X3).
    exists x. destruct X2 as ((F1 & F2 & F3) & _ & _ & C). split; [|lia].
    apply -> in_rev. rewrite E in X1. apply in_app_or in X1. destruct X1 as [X1|X1]; [exact X1|].
    apply H2 in X1. lia.
Qed.

Lemma bottom_up_spec : forall g ty s len image device max r g',
  map_ok g -> 0 < g_max g < two64 -> 0 < len -> len < two64 -> max < two64 ->
  allocate_bottom_up g ty s len image device max = (r, g') ->
  match r with
  | Ok v => alloc_done g ty (TAllocateRespectingOwnership image device) v len g' /\
            aligned s v /\ 0 < v /\ v + len <= max /\
            (forall a, feasible_up g ty s len image max a -> v <= a)
  | Err e => g' = g /\ (e = NotFound \/ e = OutOfResources) /\
             (clen (g_blocks g) + 2 <= g_cap g -> forall a, ~ feasible_up g ty s len image max a)
  | Panic => g_dbg g = true
  end.
Proof.
  intros g ty s len image device max r g' HM Hmax Hl0 Hl Hmx H. unfold allocate_bottom_up in H.
  destruct (N.eqb_spec len 0); [lia|].
  destruct (ushift_amount (g_dbg g) s) as [sh|e|] eqn:ES.
  - apply (bottom_up_loop_spec (g_blocks g) []) in H; auto.
    intros a Fa. destruct (feasible_up_block _ _ _ _ _ _ _ HM Hl0 Fa) as (_ & _ & x & X1 & ((F1 & _) & _) & _). eauto.
  - now apply shift_err in ES.
  - inversion H; subst. now apply shift_panic in ES.
Qed.

Lemma top_down_spec : forall g ty s len image device max r g',
  map_ok g -> 0 < g_max g < two64 -> 0 < len -> len < two64 -> max < two64 ->
  allocate_top_down g ty s len image device max = (r, g') ->
  match r with
  | Ok v => alloc_done g ty (TAllocateRespectingOwnership image device) v len g' /\
            aligned s v /\ 0 < v /\ v + len <= max + 1 /\
            (if g_prio32 g && (U32_MAX <? max) then
               clen (g_blocks g) + 2 <= g_cap g ->
               (forall a, feasible_down g ty s len image U32_MAX a -> a <= v /\ v + len <= U32_MAX + 1) /\
               ((forall a, ~ feasible_down g ty s len image U32_MAX a) ->
                  forall a, feasible_down g ty s len image max a -> a <= v)
             else forall a, feasible_down g ty s len image max a -> a <= v)
  | Err e => g' = g /\ (e = NotFound \/ e = OutOfResources) /\
             (clen (g_blocks g) + 2 <= g_cap g -> forall a, ~ feasible_down g ty s len image max a)
  | Panic => g_dbg g = true
  end.
Proof.
  intros g ty s len image device max r g' HM Hmax Hl0 Hl Hmx H. unfold allocate_top_down in H.
  destruct (N.eqb_spec len 0); [lia|].
  destruct (g_prio32 g && (U32_MAX <? max)) eqn:EP.
  - destruct (top_down_search g ty s len image device U32_MAX) as [[v|e|] g1] eqn:E1.
    + apply top_down_search_spec in E1; auto; [|reflexivity]. inversion H; subst.
      destruct E1 as (A & B & C & D & F). split; [exact A|]. split; [exact B|]. split; [exact C|].
      assert (U32_MAX < max) by lia. split; [lia|]. intros _. split.
      * intros a Fa. auto.
      * intros Z. exfalso. apply (Z v). destruct A as (_ & _ & _ & _ & st & st' & T1 & T2 & T3).
        cbn in T1. unfold allocate_transition in T1.
        destruct (ms_alloc st) eqn:EA; cbn [negb andb] in T1; [discriminate|].
        destruct (mt_eqb (ms_type st) NonExistent) eqn:Q1; cbn [orb negb] in T1; [discriminate|].
        destruct (mt_eqb (ms_type st) Unaccepted) eqn:Q2; cbn [orb negb] in T1; [discriminate|].
        apply mt_neq in Q1, Q2. rewrite T2 in Q1, Q2.
        destruct (N.eqb_spec (ms_image st) 0); cbn [orb negb] in T1.
        -- split; [|auto]. repeat (split; [auto; fail|]). exists st. repeat (split; [auto; fail|]). intros x Hx. now apply T3.
        -- destruct (N.eqb_spec (ms_image st) image); cbn [orb negb] in T1; [|discriminate].
           split; [|auto]. repeat (split; [auto; fail|]). exists st. repeat (split; [auto; fail|]). intros x Hx. now apply T3.
    + apply top_down_search_spec in E1; auto; [|reflexivity]. destruct E1 as (-> & E1 & E2).
      apply top_down_search_spec in H; auto. destruct r as [v|e'|]; [|exact H|exact H].
      destruct H as (A & B & C & D & F). repeat (split; [assumption|]). intros Hc. split.
      * intros a Fa. exfalso. exact (E2 Hc a Fa).
      * intros _. exact F.
    + apply top_down_search_spec in E1; auto; [|reflexivity]. inversion H; subst. exact E1.
  - apply top_down_search_spec in H; auto.
Qed.

Definition alloc_wf (at_ : alloc_type) : Prop :=
  match at_ with
  | BottomUp (Some a) | TopDown (Some a) | AtAddress a => word a
  | _ => True
  end.

Lemma alloc_done_effect : forall g ty image device v len at_ s g' (t : transition),
  image <> 0 -> call_range (OpAllocate at_ ty s len image device) v = Some (v, len) ->
  (t = TAllocateRespectingOwnership image device \/ (t = TAllocate image device /\ exists a, at_ = AtAddress a)) ->
  alloc_done g ty t v len g' ->
  same_frame g g' /\ map_ok g' /\
  exists st st', 0 < len /\ v + len <= g_max g /\
    call_effect (OpAllocate at_ ty s len image device) st st' /\
    range_changed (g_blocks g) (g_blocks g') v len st st'.
Proof.
  intros g ty image device v len at_ s g' t Hi _ Ht (A & B & C & D & st & st' & T1 & T2 & T3).
  split; [exact A|]. split; [exact B|]. exists st, st'. split; [exact C|]. split; [exact D|]. split; [|exact T3].
  assert (X : exists resp, allocate_transition st image device resp = Some st' /\
              (resp = true \/ exists a, at_ = AtAddress a)).
  { destruct Ht as [->|(-> & Ht)]; cbn in T1; eauto. }
  clear T1. destruct X as (resp & T1 & T4). unfold allocate_transition in T1.
  destruct (ms_alloc st) eqn:EA; cbn [negb andb] in T1; [discriminate|].
  destruct (mt_eqb (ms_type st) NonExistent) eqn:Q1; cbn [orb negb] in T1; [discriminate|].
  destruct (mt_eqb (ms_type st) Unaccepted) eqn:Q2; cbn [orb negb] in T1; [discriminate|].
  apply mt_neq in Q1, Q2. rewrite T2 in Q1, Q2.
  destruct (resp && negb ((ms_image st =? 0) || (ms_image st =? image))) eqn:Q3; [discriminate|].
  inversion T1; subst st'. cbn [call_effect]. rewrite T2.
  repeat (split; [auto; fail|]). split; [|reflexivity].
  destruct at_; auto; (destruct T4 as [->|(a & T4)]; [|discriminate]); cbn in Q3;
  destruct (N.eqb_spec (ms_image st) 0); auto; destruct (N.eqb_spec (ms_image st) image); auto; discriminate.
Qed.

Lemma allocate_spec : forall g at_ ty s len image device r g',
  map_ok g -> 0 < g_max g < two64 -> word len -> alloc_wf at_ ->
  allocate_memory_space g at_ ty s len image device = (r, g') ->
  match r with
  | Ok v => same_frame g g' /\ map_ok g' /\ g_locked g = false /\
      aligned s v /\ within_bound at_ v len /\ nonzero_result at_ v /\
      exists st st', 0 < len /\ v + len <= g_max g /\
        call_effect (OpAllocate at_ ty s len image device) st st' /\
        range_changed (g_blocks g) (g_blocks g') v len st st'
  | Err _ => g' = g
  | Panic => g_dbg g = true
  end.
Proof.
  intros g at_ ty s len image device r g' HM Hmax Hl Hw H. unfold allocate_memory_space in H.
  destruct (g_locked g) eqn:EL.
  { unfold debug_fail in H. destruct (g_dbg g) eqn:Ed; inversion H; subst; auto. }
  destruct (N.eqb_spec (g_max g) 0); [lia|].
  destruct ((len =? 0) || (image =? 0) || mt_eqb ty Unaccepted) eqn:EA.
  { inversion H; subst. reflexivity. }
  assert (Hl0 : 0 < len) by lia. assert (Hi : image <> 0) by lia.
  assert (Hmx : u64_max < two64) by reflexivity.
  destruct at_ as [m|m|a].
  - apply bottom_up_spec in H; auto; [|destruct m; auto].
    destruct r as [v|e|]; [|tauto|exact H]. destruct H as (A & B & C & D & _).
    destruct (alloc_done_effect g ty image device v len (BottomUp m) s g' _ Hi eq_refl (or_introl eq_refl) A) as (X1 & X2 & X3).
    repeat (split; [auto; fail|]). split; [destruct m; cbn; auto|]. split; [exact C|]. exact X3.
  - apply top_down_spec in H; auto; [|destruct m; auto].
    destruct r as [v|e|]; [|tauto|exact H]. destruct H as (A & B & C & D & _).
    destruct (alloc_done_effect g ty image device v len (TopDown m) s g' _ Hi eq_refl (or_introl eq_refl) A) as (X1 & X2 & X3).
    repeat (split; [auto; fail|]). split; [destruct m; cbn; auto|]. split; [exact C|]. exact X3.
  - destruct (uadd (g_dbg g) a len) as [e|e|] eqn:EU.
    2: { now apply uadd_err in EU. }
    2: { inversion H; subst. now apply uadd_panic in EU. }
    destruct (g_max g <? e); [inversion H; subst; reflexivity|].
    unfold allocate_address in H. destruct (N.eqb_spec len 0); [lia|].
    destruct (closest_sst g a len (TAllocate image device) HM Hmax Hw Hl) as (pre & x & post & E & C & L & B1 & B2 & P).
    rewrite C, L in H.
    destruct (mt_eqb (ms_type (b_st x)) ty) eqn:Ety.
    + destruct (ushift_amount (g_dbg g) s) as [sh|e0|] eqn:ES.
      2: { now apply shift_err in ES. }
      2: { inversion H; subst. now apply shift_panic in ES. }
      apply shift_of in ES. destruct ES as (-> & Hsh). cbn [andb] in H.
      destruct (N.eqb_spec a (mask_down a (s mod 64))) as [Em|Em]; cbn [negb] in H; [|inversion H; subst; reflexivity].
      destruct (g_sst g (b_base x) a len (TAllocate image device)) as [[k|e0|] g1] eqn:EG.
      * inversion H; subst v' g1 || inversion H; subst.
        destruct (gsst_one_step g pre x post _ len _ k g' HM E P) as ((F & M & _ & Le & _) & (s' & A1 & A2) & _).
        apply mt_eqb_spec in Ety.
        match goal with HH : ?q = mask_down ?q _ |- _ => set (v := q) in * end.
        assert (A : alloc_done g ty (TAllocate image device) v len g').
        { repeat (split; [auto; fail|]). exists (b_st x), s'. auto. }
        destruct (alloc_done_effect g ty image device v len (AtAddress v) s g' _ Hi eq_refl
                    (or_intror (conj eq_refl (ex_intro _ v eq_refl))) A) as (X1 & X2 & X3).
        repeat (split; [auto; fail|]). split.
        { unfold aligned, alignment_of. rewrite Em. apply mask_down_spec; [exact Hw|exact Hsh]. }
        split; [reflexivity|]. split; [exact I|]. exact X3.
      * destruct (gsst_err _ _ _ _ _ _ _ P) as (-> & Hne). destruct e0; inversion H; subst; auto; congruence.
      * inversion H; subst. destruct P as (_ & P). cbn [sst_post] in P. tauto.
    + cbn [andb negb] in H. inversion H; subst. reflexivity.
Qed.
